(** * Along a history, the database shows the maps. *)
From Verif Require Import Base BaseFacts Hex Types Rlp RlpFacts FixedCodec FixedCodecFacts CodecProps StateAdapter StateAdapterFacts AdapterProps
  Executor ExecSpec ExecutorFacts ExecOrder ExecChain LedgerFacts Mpt MptFacts MptDen MptCodec StorageSpec MptStore TrieSpec TrieFacts PropTrie DbExec DbFacts DbRun DbSpec.
Local Open Scope N_scope.

Section Proof.
  Context (digest : bytes -> hash) (show : exec_err -> rstring).
  Notation root := (mpt_root digest).
  Notation parts := (parts digest).
  Notation R := (R digest).
  Notation holds := (ExecChain.holds root).

  Record J (s : mstate) (t : dstate) : Prop := {
    j_addr : addressed digest (ds_db t);
    j_vals : forall v, v ∈ values (ds_db t) -> v ∈ flat_map parts (ms_tries s);
    j_known : forall r, r ∈ ms_known s -> exists T A B, r = root T /\ dholds digest (ds_db t) T A B /\ holds (ms_db s) r T A B /\
      (forall m, m ∈ ExecChain.tries T A B -> m ∈ ms_tries s);
    j_kept : forall r m, ms_db s !! r = Some m -> r = root m /\ m ∈ ms_tries s }.

  Lemma apart_sub (s : mstate) l : nodes_apart digest s -> (forall v, v ∈ l -> v ∈ parts ∅ \/ v ∈ flat_map parts (ms_tries s)) -> no_collision digest l.
  Proof. intros Hn Hl a b Ha Hb. apply Hn; (cbn [flat_map]; apply elem_of_app; auto). Qed.
  Lemma parts_in (m : gmap bytes bytes) (l : list (gmap bytes bytes)) (v : bytes) : m ∈ l -> v ∈ parts m -> v ∈ flat_map parts l.
  Proof. intros H1 H2. apply in_parts. eauto. Qed.
  Lemma dholds_fair db T A B : dholds digest db T A B -> forall m, m ∈ ExecChain.tries T A B -> fair_map m.
  Proof.
    intros [[] [] []] m Hm. unfold ExecChain.tries in Hm. apply elem_of_cons in Hm as [->|Hm]; [assumption|].
    apply elem_of_cons in Hm as [->|Hm]; [assumption|]. apply elem_of_list_singleton in Hm as ->. assumption.
  Qed.
  Lemma clash_of (s : mstate) (l : list (gmap bytes bytes)) : nodes_apart digest s -> (forall m, m ∈ l -> fair_map m /\ (m = ∅ \/ m ∈ ms_tries s)) -> clash_free root l.
  Proof.
    intros Hn Hl. apply C104_executor_roots_clash_free; [apply Forall_forall; intros m Hm; apply Hl, Hm|].
    eapply apart_sub; [exact Hn|]. intros v Hv. apply in_parts in Hv as (m & Hm & Hv). destruct (Hl m Hm) as [_ [->|H]]; [auto|]. right. eapply parts_in; eassumption.
  Qed.

  (** Opening. *)
  Lemma open_same s t r p : J s t -> nodes_apart digest s -> root_ok digest s r ->
    (exists x d, m_open digest s r p = Ok x /\ d_open digest t r p = Ok d /\ R x d /\ fresh x /\ x_db x = ms_db s /\ dx_db d = ds_db t /\ dx_log d = []) \/
    (m_open digest s r p = Err EInvalidStateRoot /\ d_open digest t r p = Err EInvalidStateRoot).
  Proof.
    intros HJ Hn Hr. unfold m_open, d_open. destruct (decide (r = hash_from_empty digest)) as [->|Hne].
    { left. destruct (from_empty_same digest (pm_chain p) (ds_db t) (pm_epoch p) (pm_price p) (pm_coinbase p) (ms_db s)) as (E & d & Ed & L & D & HR).
      eexists. exists d. split; [exact E|]. split; [exact Ed|]. split; [exact HR|]. split; [|auto]. unfold fresh. cbn. auto. }
    destruct Hr as [->|[Hk|Hu]]; [congruence| |].
    - left. destruct (j_known _ _ HJ r Hk) as (T & A & B & -> & Hd & Hh & Hsub).
      assert (T ∈ ms_tries s) as HT by (apply Hsub, elem_of_list_here).
      assert (no_collision digest (parts ∅ ++ parts T)) as Hc.
      { eapply apart_sub; [exact Hn|]. intros v Hv. apply elem_of_app in Hv as [Hv|Hv]; [auto|]. right. eapply parts_in; eassumption. }
      assert (clash_free root [∅; T]) as Hcl.
      { apply (clash_of s); [exact Hn|]. intros m Hm. apply elem_of_cons in Hm as [->|Hm]; [split; [apply fair_empty|auto]|].
        apply elem_of_list_singleton in Hm as ->. split; [|auto]. apply (dholds_fair _ _ _ _ Hd). apply elem_of_list_here. }
      destruct (from_root_same digest (pm_chain p) (ds_db t) (pm_epoch p) (pm_price p) (pm_coinbase p) T A B (ms_db s) Hd Hc) as (d & Ed & L & D & HR).
      exists (MkExec (pm_chain p) (pm_epoch p) (pm_price p) (pm_coinbase p) T (ad_new A) (ad_new B) (ms_db s)), d.
      split; [|split; [exact Ed|split; [exact HR|split; [unfold fresh; cbn; auto|auto]]]].
      apply (from_root_holds digest root); [apply C104_empty_root|exact Hcl|apply (dh_fits_acc _ _ _ _ _ Hd)|apply (dh_fits_bank _ _ _ _ _ Hd)|exact Hh].
    - right. unfold from_root, d_from_root. rewrite !decide_False by exact Hne. unfold trie_from, tr_from.
      assert (ds_db t !! r = None) as ->.
      { destruct (ds_db t !! r) as [b|] eqn:E; [|reflexivity]. exfalso. pose proof (j_vals _ _ HJ b (values_in _ _ _ E)) as Hv.
        apply in_parts in Hv as (m & Hm & Hb). apply (Hu m b Hm Hb). symmetry. apply (j_addr _ _ HJ), E. }
      assert (ms_db s !! r = None) as E.
      { destruct (ms_db s !! r) as [m|] eqn:E; [|reflexivity]. exfalso. destruct (j_kept _ _ HJ r m E) as [-> Hm].
        apply (Hu m _ Hm (elem_of_list_here _ _)). reflexivity. }
      split; [|reflexivity]. match goal with |- context [ok_or ?z EInvalidStateRoot] => replace z with (@None (gmap bytes bytes)) by (symmetry; exact E) end. reflexivity.
  Qed.

  (** A finished commit. *)
  Lemma commit_J s t x' db' log first : J s t -> nodes_apart digest (MState (x_db x') (root (x_trie x') :: ms_known s) (ms_tries s ++ tries_of x')) ->
    x_db x' = db_of root first (enc_map account_schema (committed x')) (enc_map asset_schema (committed_assets x')) (x_trie x') (ms_db s) ->
    holds (x_db x') (root (x_trie x')) (x_trie x') (committed x') (committed_assets x') ->
    ds_db t ⊆ db' -> addressed digest db' -> stored_in digest x' db' ->
    (forall v, v ∈ values db' -> v ∈ flat_map parts (tries_of x') \/ v ∈ values (ds_db t)) ->
    J (MState (x_db x') (root (x_trie x') :: ms_known s) (ms_tries s ++ tries_of x')) (DState db' log).
  Proof.
    intros HJ Hn Edb Hh Hsub Ha Hst Hv. set (eA := enc_map account_schema (committed x')) in *. set (eB := enc_map asset_schema (committed_assets x')) in *. set (T := x_trie x') in *.
    assert (forall m, m ∈ tries_of x' -> fair_map m) as Hfn by (exact (dholds_fair _ _ _ _ Hst)).
    constructor; cbn [ms_db ms_known ms_tries ds_db].
    - exact Ha.
    - intros v Hv'. rewrite flat_map_app. apply elem_of_app. destruct (Hv v Hv') as [H|H]; [auto|]. left. apply (j_vals _ _ HJ), H.
    - intros r Hr. apply elem_of_cons in Hr as [->|Hr].
      + exists T, (committed x'), (committed_assets x'). split; [reflexivity|]. split; [exact Hst|]. split; [exact Hh|].
        intros m Hm. apply elem_of_app. right. exact Hm.
      + destruct (j_known _ _ HJ r Hr) as (T0 & A0 & B0 & E & Hd & Hh0 & Hs0). exists T0, A0, B0. split; [exact E|].
        split; [eapply dholds_mono; eassumption|]. split; [|intros m Hm; apply elem_of_app; left; apply Hs0, Hm].
        assert (clash_free root (ExecChain.tries T0 A0 B0 ++ (if first then [eB; eA; T] else [eA; eB; T]))) as Hcl.
        { eapply clash_of; [exact Hn|]. cbn [ms_tries]. intros m Hm. apply elem_of_app in Hm as [Hm|Hm].
          - split; [exact (dholds_fair _ _ _ _ Hd m Hm)|]. right. apply elem_of_app. left. apply Hs0, Hm.
          - assert (m ∈ tries_of x') as Hm'.
            { unfold tries_of. fold eA eB T. destruct first; repeat (apply elem_of_cons in Hm as [->|Hm]; [repeat first [apply elem_of_list_here|apply elem_of_list_further]|]); apply elem_of_nil in Hm as []. }
            split; [apply Hfn, Hm'|]. right. apply elem_of_app. right. exact Hm'. }
        pose proof (ExecChain.holds_after root (ms_db s) r T0 A0 B0 _ Hcl Hh0) as H. rewrite Edb. unfold db_of. destruct first; exact H.
    - intros r m E. set (new := x_db x' : gmap hash (gmap bytes bytes)) in *.
      assert (forall (m0 : gmap bytes bytes) (g : gmap hash (gmap bytes bytes)), <[root m0 := m0]> g !! r = Some m -> (r = root m0 /\ m = m0) \/ g !! r = Some m) as Hi.
      { intros m0 g0 E0. destruct (decide (root m0 = r)) as [<-|Hne]; [rewrite lookup_insert in E0; left; split; congruence|].
        rewrite lookup_insert_ne in E0 by exact Hne. right. exact E0. }
      assert (forall m0, m0 ∈ tries_of x' -> r = root m0 /\ m = m0 -> r = root m /\ m ∈ ms_tries s ++ tries_of x') as Hdone.
      { intros m0 Hm0 [-> ->]. split; [reflexivity|]. apply elem_of_app. right. exact Hm0. }
      assert (T ∈ tries_of x' /\ eA ∈ tries_of x' /\ eB ∈ tries_of x') as (IT & IA & IB).
      { unfold tries_of. fold eA eB T. repeat split; repeat first [apply elem_of_list_here|apply elem_of_list_further]. }
      assert (ms_db s !! r = Some m -> r = root m /\ m ∈ ms_tries s ++ tries_of x') as Hold.
      { intros E0. destruct (j_kept _ _ HJ r m E0) as [H1 H2]. split; [exact H1|]. apply elem_of_app. left. exact H2. }
      rewrite Edb in E. unfold db_of in E. apply Hi in E as [E|E]; [apply (Hdone T IT E)|].
      destruct first; (apply Hi in E as [E|E]; [eapply Hdone; [|exact E]; assumption|]); (apply Hi in E as [E|E]; [eapply Hdone; [|exact E]; assumption|exact (Hold E)]).
  Qed.

  (** Smallness along a run. *)
  Lemma quiet_sizes t d : sizes_ok (DState (dx_db d) (ds_log t ++ dx_log d)) -> quiet d.
  Proof. intros H v Hv. apply H. cbn [ds_log]. apply elem_of_app. right. exact Hv. Qed.

  Lemma exec_ready os qs x d ts : (forall n, order_ok (os n)) -> (forall n, dorder_ok (qs n)) -> R x d -> quiet (d_exec digest show qs d ts).2 ->
    match exec digest root show os x ts with
    | Ok (resp, x') => exists d2 x2, d_ready digest show qs d ts = Some d2 /\ R x2 d2 /\ dx_db d2 = dx_db d /\ x' = (commit root (os O) x2).2
    | _ => d_ready digest show qs d ts = None
    end.
  Proof.
    intros Ho Hq HR Hfin. unfold exec, d_exec, d_ready in *.
    pose proof (txs_same digest show ts (fun n => os (S n)) (fun n => qs (S n)) x d (fun n => Ho (S n)) (fun n => Hq (S n)) HR) as H1.
    destruct (txs_grows digest show ts (fun n => qs (S n)) d) as [_ Dg].
    destruct (d_exec_txs digest show (fun n => qs (S n)) d ts) as [[rs|e|] d1]; cbn [fst snd] in *.
    - pose proof (pay_grows digest (dx_coinbase d1) (all_cycles_used rs) (d1, no_ctx d1)) as [Ep Dp]. cbn [fst] in Ep, Dp.
      assert (quiet (d_pay digest (dx_coinbase d1) (all_cycles_used rs) (d1, no_ctx d1)).2.1) as Hqp.
      { destruct (d_pay digest (dx_coinbase d1) (all_cycles_used rs) (d1, no_ctx d1)) as [[u|e|] [d2 c2]]; cbn [fst snd] in *; try exact Hfin.
        destruct (d_commit digest (qs O) d2) as [[r d3]|] eqn:Ec; cbn [snd] in Hfin; [|exact Hfin].
        unfold quiet in *. rewrite <- (d_commit_log _ _ _ _ _ Ec). exact Hfin. }
      specialize (H1 (quiet_back _ _ Ep Hqp)).
      destruct (exec_txs digest show (fun n => os (S n)) x ts) as [[rs0 x1]|e|]; cbn [agrees] in H1; [|destruct H1..]. destruct H1 as [-> HR1].
      cbn [rbind] in *. rewrite (r_coin _ _ _ HR1) in *.
      destruct (pay_same digest (all_cycles_used rs) x1 d1 (no_ctx d1) HR1 Hqp) as (d2 & E2 & HR2). rewrite E2 in *. cbn [fst snd] in *.
      destruct (commit root (os O) (pay_coinbase digest x1 (all_cycles_used rs))) as [r x3] eqn:Ec.
      exists d2, (pay_coinbase digest x1 (all_cycles_used rs)). split; [reflexivity|]. split; [exact HR2|]. split; [congruence|]. rewrite Ec. reflexivity.
    - specialize (H1 Hfin). destruct (exec_txs digest show (fun n => os (S n)) x ts) as [[rs0 x1]|e0|]; cbn [agrees rbind] in *; [destruct H1|reflexivity|destruct H1].
    - specialize (H1 Hfin). destruct (exec_txs digest show (fun n => os (S n)) x ts) as [[rs0 x1]|e0|]; cbn [agrees rbind] in *; [destruct H1|destruct H1|reflexivity].
  Qed.
  Lemma left_same o q x d n : order_ok o -> dorder_ok q -> R x d -> addressed digest (dx_db d) ->
    no_collision digest (flat_map parts (tries_of (commit root o x).2) ++ values (dx_db d)) ->
    dx_db d ⊆ d_left digest q d n /\ addressed digest (d_left digest q d n) /\
    (forall v, v ∈ values (d_left digest q d n) -> v ∈ flat_map parts (tries_of (commit root o x).2) \/ v ∈ values (dx_db d)).
  Proof.
    intros Ho Hq HR Ha Hc. destruct (commit_same digest o q x d Ho Hq HR Ha Hc) as (d3 & E3 & _ & _ & Hs3 & Ha3 & _ & V3).
    revert Hc V3. rewrite (commit_eq root o x Ho). cbn zeta. cbn [snd]. unfold tries_of, committed, committed_assets. cbn [x_trie x_acc x_bank ad_trie].
    set (A := ad_stash (x_acc x) ∪ ad_trie (x_acc x)). set (B := ad_stash (x_bank x) ∪ ad_trie (x_bank x)).
    set (T := top_after root x A B). set (eA := enc_map account_schema A). set (eB := enc_map asset_schema B). intros Hc V3.
    assert (forall v, v ∈ flat_map parts [T; eA; eB] <-> v ∈ parts T \/ v ∈ parts eA \/ v ∈ parts eB) as Hin.
    { intros v. cbn [flat_map]. rewrite app_nil_r, !elem_of_app. reflexivity. }
    assert (dx_db d ⊆ dx_db d /\ addressed digest (dx_db d) /\ (forall v, v ∈ values (dx_db d) -> v ∈ flat_map parts [T; eA; eB] \/ v ∈ values (dx_db d))) as H0 by auto.
    destruct n as [|[|[|n]]]; unfold d_left.
    - exact H0.
    - destruct (do_bank_first q).
      + destruct (commit_bank_same digest q x d Hq HR Ha) as (d1 & -> & Hs1 & Ha1 & L1 & V1 & _).
        { eapply coll_sub; [|exact Hc]. intros v Hv. rewrite elem_of_app, Hin. apply elem_of_app in Hv as [Hv|Hv]; auto. }
        split; [exact Hs1|]. split; [exact Ha1|]. intros v Hv. rewrite Hin. destruct (V1 v Hv); auto.
      + destruct (commit_acc_same digest q x d Hq HR Ha) as (d1 & -> & Hs1 & Ha1 & L1 & V1 & _).
        { eapply coll_sub; [|exact Hc]. intros v Hv. rewrite elem_of_app, Hin. apply elem_of_app in Hv as [Hv|Hv]; auto. }
        split; [exact Hs1|]. split; [exact Ha1|]. intros v Hv. rewrite Hin. destruct (V1 v Hv); auto.
    - destruct (do_bank_first q).
      + destruct (commit_bank_same digest q x d Hq HR Ha) as (d1 & -> & Hs1 & Ha1 & L1 & V1 & W1 & F1 & I1 & HR1).
        { eapply coll_sub; [|exact Hc]. intros v Hv. rewrite elem_of_app, Hin. apply elem_of_app in Hv as [Hv|Hv]; auto. }
        destruct (commit_acc_same digest q _ d1 Hq HR1 Ha1) as (d2 & -> & Hs2 & Ha2 & L2 & V2 & _).
        { cbn [x_acc]. eapply coll_sub; [|exact Hc]. intros v Hv. rewrite elem_of_app, Hin. apply elem_of_app in Hv as [Hv|Hv]; [auto|]. destruct (V1 v Hv); auto. }
        split; [etransitivity; eassumption|]. split; [exact Ha2|]. intros v Hv. rewrite Hin. destruct (V2 v Hv) as [H|H]; [auto|]. destruct (V1 v H); auto.
      + destruct (commit_acc_same digest q x d Hq HR Ha) as (d1 & -> & Hs1 & Ha1 & L1 & V1 & W1 & F1 & I1 & HR1).
        { eapply coll_sub; [|exact Hc]. intros v Hv. rewrite elem_of_app, Hin. apply elem_of_app in Hv as [Hv|Hv]; auto. }
        destruct (commit_bank_same digest q _ d1 Hq HR1 Ha1) as (d2 & -> & Hs2 & Ha2 & L2 & V2 & _).
        { cbn [x_bank]. eapply coll_sub; [|exact Hc]. intros v Hv. rewrite elem_of_app, Hin. apply elem_of_app in Hv as [Hv|Hv]; [auto|]. destruct (V1 v Hv); auto. }
        split; [etransitivity; eassumption|]. split; [exact Ha2|]. intros v Hv. rewrite Hin. destruct (V2 v Hv) as [H|H]; [auto|]. destruct (V1 v H); auto.
    - rewrite E3. split; [exact Hs3|]. split; [exact Ha3|exact V3].
  Qed.

  Lemma genesis_ready o1 o2 q1 q2 x d g : order_ok o1 -> order_ok o2 -> dorder_ok q1 -> dorder_ok q2 -> R x d ->
    quiet (d_create_genesis digest q1 q2 d g).2 ->
    match create_genesis digest root o1 o2 x g with
    | Ok (r, x') => exists d2 x2, d_gready digest q1 d g = Some d2 /\ R x2 d2 /\ dx_db d2 = dx_db d /\ x' = (commit root o2 x2).2
    | _ => d_gready digest q1 d g = None
    end.
  Proof.
    intros O1 O2 Q1 Q2 HR Hfin. unfold create_genesis, d_create_genesis, d_gready in *.
    assert (d_genesis_ctx digest d = genesis_ctx digest x) as Ectx by (unfold d_genesis_ctx, genesis_ctx; destruct HR; congruence).
    rewrite Ectx in *. destruct (same_genesis digest g) as [G Sm]. specialize (G (d, genesis_ctx digest x)). destruct G as [_ G]. cbn [fst] in G.
    specialize (Sm x d (genesis_ctx digest x) HR).
    destruct (genesis_body digest g (x, genesis_ctx digest x)) as [r0 [x1 c1']], (d_genesis_body digest g (d, genesis_ctx digest x)) as [[u|e|] [d1 c1]]; cbn [fst snd] in *.
    - assert (quiet d1) as Hq1.
      { destruct (d_commit digest q2 (d_stash q1 d1)) as [[r d3]|] eqn:Ec; cbn [snd] in Hfin; [|exact Hfin].
        unfold quiet in *. rewrite (d_commit_log _ _ _ _ _ Ec), (proj1 (stash_log q1 d1)) in Hfin. exact Hfin. }
      destruct (Sm Hq1) as (-> & _ & HR1). pose proof (r_stash digest o1 q1 _ _ O1 Q1 HR1) as HR2.
      destruct (stash_log q1 d1) as [_ Ds].
      destruct (commit root o2 (stash_all o1 x1)) as [r x3] eqn:Ec. exists (d_stash q1 d1), (stash_all o1 x1).
      split; [reflexivity|]. split; [exact HR2|]. split; [congruence|]. rewrite Ec. reflexivity.
    - destruct (Sm Hfin) as (-> & _ & _). reflexivity.
    - destruct (Sm Hfin) as (-> & _ & _). reflexivity.
  Qed.

  (** One step. *)
  Lemma canon_ok : order_ok canon_order.
  Proof. split; reflexivity. Qed.
  Lemma apart_prefix s s' l : ms_tries s' = ms_tries s ++ l -> nodes_apart digest s' -> nodes_apart digest s.
  Proof.
    intros E Hn. eapply apart_sub; [exact Hn|]. intros v Hv. cbn [flat_map] in Hv. apply elem_of_app in Hv as [Hv|Hv]; [auto|]. right.
    rewrite E, flat_map_app. apply elem_of_app. left. exact Hv.
  Qed.
  Lemma step_tries s o : exists l, ms_tries (m_step digest show s o).2 = ms_tries s ++ l.
  Proof.
    assert (exists l, ms_tries s = ms_tries s ++ l) as H0 by (exists []; rewrite app_nil_r; reflexivity).
    destruct o as [p g|root0 p ts|root0 p a id|root0 p ts n|p g n]; cbn [m_step snd]; [destruct (m_genesis digest s p g) as [[r x]|e|]|destruct (m_block digest show s root0 p ts) as [[r x]|e|]| |destruct (m_block digest show s root0 p ts) as [[r x]|e|]|destruct (m_genesis digest s p g) as [[r x]|e|]]; try exact H0; exists (tries_of x); reflexivity.
  Qed.
  Lemma step_log qs t o : exists l, ds_log (d_step digest show qs t o).2 = ds_log t ++ l.
  Proof.
    assert (exists l, ds_log t = ds_log t ++ l) as H0 by (exists []; rewrite app_nil_r; reflexivity).
    destruct o as [p g|root0 p ts|root0 p a id|root0 p ts n|p g n]; cbn [d_step].
    - destruct (d_open digest t (hash_from_empty digest) p) as [d|e|]; try exact H0.
      destruct (d_create_genesis digest (qs 0%nat) (qs 1%nat) d g) as [r d']. exists (dx_log d'). reflexivity.
    - destruct (d_open digest t root0 p) as [d|e|]; try exact H0. destruct (d_exec digest show qs d ts) as [r d']. exists (dx_log d'). reflexivity.
    - exact H0.
    - cbn [snd]. destruct (d_open digest t root0 p) as [d|e|]; try exact H0. eexists. reflexivity.
    - cbn [snd]. destruct (d_open digest t (hash_from_empty digest) p) as [d|e|]; try exact H0. eexists. reflexivity.
  Qed.

  Lemma coll_new s x' (db : gmap hash bytes) s' : nodes_apart digest s' -> ms_tries s' = ms_tries s ++ tries_of x' ->
    (forall v, v ∈ values db -> v ∈ flat_map parts (ms_tries s)) -> no_collision digest (flat_map parts (tries_of x') ++ values db).
  Proof.
    intros Hn E Hv. eapply apart_sub; [exact Hn|]. intros v H. rewrite E, flat_map_app. right. apply elem_of_app.
    apply elem_of_app in H as [H|H]; [right; exact H|left; apply Hv, H].
  Qed.
  Lemma clash_new s' x' db' l : nodes_apart digest s' -> ms_tries s' = l ++ tries_of x' -> stored_in digest x' db' -> clash_free root (tries_of x').
  Proof.
    intros Hn E Hst. eapply clash_of; [exact Hn|]. intros m Hm. split; [exact (dholds_fair _ _ _ _ Hst m Hm)|]. right. rewrite E. apply elem_of_app. right. exact Hm.
  Qed.

  Lemma step_same qs s t o : (forall n, dorder_ok (qs n)) -> J s t -> op_ok digest s o ->
    nodes_apart digest (m_step digest show s o).2 -> sizes_ok (d_step digest show qs t o).2 ->
    (d_step digest show qs t o).1 = (m_step digest show s o).1 /\ J (m_step digest show s o).2 (d_step digest show qs t o).2 /\
    ds_db t ⊆ ds_db (d_step digest show qs t o).2 /\
    forall r x, leaves digest show s o = Some (r, x) -> r = root (x_trie x) /\ stored_in digest x (ds_db (d_step digest show qs t o).2).
  Proof.
    intros Hq HJ Hok Hn Hsz. destruct (step_tries s o) as (l0 & El0). pose proof (apart_prefix _ _ _ El0 Hn) as Hn0. clear l0 El0.
    destruct o as [p g|r p ts|r p a id|r p ts n|p g n]; cbn [m_step d_step op_ok leaves] in *.
    - (* genesis *)
      unfold m_genesis, m_open, d_open in *. cbn [fst snd] in *.
      destruct (from_empty_same digest (pm_chain p) (ds_db t) (pm_epoch p) (pm_price p) (pm_coinbase p) (ms_db s)) as (E & d & Ed & L & D & HR).
      rewrite E, Ed in *. cbn [rbind] in *. set (x := MkExec _ _ _ _ _ _ _ _) in *.
      assert (addressed digest (dx_db d)) as Ha by (rewrite D; apply (j_addr _ _ HJ)).
      pose proof (genesis_same digest canon_order canon_order (qs 0%nat) (qs 1%nat) x d g canon_ok canon_ok (Hq 0%nat) (Hq 1%nat) HR Ha) as Hg.
      assert (quiet (d_create_genesis digest (qs 0%nat) (qs 1%nat) d g).2) as Hqt.
      { destruct (d_create_genesis digest (qs 0%nat) (qs 1%nat) d g) as [r0 d0]. cbn [snd] in *. exact (quiet_sizes t d0 Hsz). }
      specialize (Hg Hqt). destruct (create_genesis digest root canon_order canon_order x g) as [[r0 x']|e|] eqn:Eg; cbn [res_of rmap fst snd] in *.
      + destruct Hg as (d' & -> & Hsub & Ha' & Hst & Hv).
        { intros r1 x1 E1. assert (x1 = x') as -> by congruence. rewrite D. eapply coll_new; [exact Hn|reflexivity|apply (j_vals _ _ HJ)]. }
        cbn [fst snd]. split; [reflexivity|]. rewrite D in *.
        assert (clash_free root (tries_of x')) as Hcl by (eapply clash_new; [exact Hn|reflexivity|exact Hst]).
        destruct (genesis_db digest root canon_order canon_order x g r0 x' canon_ok canon_ok) as (first & Edb); [unfold fresh; cbn; auto|reflexivity|reflexivity|exact Eg|].
        pose proof (genesis_holds digest root canon_order canon_order x g r0 x' canon_ok Eg Hcl) as Hh.
        assert (r0 = root (x_trie x')) as Er by exact (proj1 Hh). rewrite Er in *. unfold d_after. split; [eapply commit_J; eassumption|]. split; [exact Hsub|].
        intros r1 x1 [= <- <-]. split; [reflexivity|exact Hst].
      + destruct Hg as (d' & -> & D'); [intros r1 x1 E1; discriminate|]. cbn [fst snd]. split; [reflexivity|].
        unfold d_after. cbn [ds_db]. rewrite D', D. split; [|split; [reflexivity|discriminate]]. destruct HJ. constructor; cbn [ds_db]; assumption.
      + destruct Hg as (d' & -> & D'); [intros r1 x1 E1; discriminate|]. cbn [fst snd]. split; [reflexivity|].
        unfold d_after. cbn [ds_db]. rewrite D', D. split; [|split; [reflexivity|discriminate]]. destruct HJ. constructor; cbn [ds_db]; assumption.
    - (* block *)
      unfold m_block in *. cbn [fst snd] in *.
      destruct (open_same s t r p HJ Hn0 Hok) as [(x & d & Em & Ed & HR & Hfr & Edb0 & D & L)|[Em Ed]]; rewrite Em, Ed in *; cbn [rbind res_of rmap fst snd] in *; [|split; [reflexivity|split; [exact HJ|split; [reflexivity|discriminate]]]].
      assert (addressed digest (dx_db d)) as Ha by (rewrite D; apply (j_addr _ _ HJ)).
      pose proof (exec_same digest show (fun _ => canon_order) qs x d ts (fun _ => canon_ok) Hq HR Ha) as Hg.
      assert (quiet (d_exec digest show qs d ts).2) as Hqt.
      { destruct (d_exec digest show qs d ts) as [r0 d0]. cbn [snd] in *. exact (quiet_sizes t d0 Hsz). }
      specialize (Hg Hqt). destruct (exec digest root show (fun _ => canon_order) x ts) as [[r0 x']|e|] eqn:Eg; cbn [res_of rmap fst snd] in *.
      + destruct Hg as (d' & -> & Hsub & Ha' & Hst & Hv).
        { intros r1 x1 E1. assert (x1 = x') as -> by congruence. rewrite D. eapply coll_new; [exact Hn|reflexivity|apply (j_vals _ _ HJ)]. }
        cbn [fst snd]. split; [reflexivity|]. rewrite D in *.
        assert (clash_free root (tries_of x')) as Hcl by (eapply clash_new; [exact Hn|reflexivity|exact Hst]).
        destruct (exec_db digest root show (fun _ => canon_order) x ts r0 x' (fun _ => canon_ok) Hfr Eg) as (first & Edb). rewrite Edb0 in Edb.
        pose proof (exec_holds digest root show (fun _ => canon_order) x ts r0 x' (fun _ => canon_ok) Eg Hcl) as Hh.
        assert (er_state_root r0 = root (x_trie x')) as Er by exact (proj1 Hh). rewrite Er in *. unfold d_after. split; [eapply commit_J; eassumption|]. split; [exact Hsub|].
        intros r1 x1 [= <- <-]. split; [reflexivity|exact Hst].
      + destruct Hg as (d' & -> & D'); [intros r1 x1 E1; discriminate|]. cbn [fst snd]. split; [reflexivity|].
        unfold d_after. cbn [ds_db]. rewrite D', D. split; [|split; [reflexivity|discriminate]]. destruct HJ. constructor; cbn [ds_db]; assumption.
      + destruct Hg as (d' & -> & D'); [intros r1 x1 E1; discriminate|]. cbn [fst snd]. split; [reflexivity|].
        unfold d_after. cbn [ds_db]. rewrite D', D. split; [|split; [reflexivity|discriminate]]. destruct HJ. constructor; cbn [ds_db]; assumption.
    - (* balance *)
      cbn [fst snd] in *. split; [|split; [exact HJ|split; [reflexivity|discriminate]]]. f_equal.
      destruct (open_same s t r p HJ Hn0 Hok) as [(x & d & -> & -> & HR & _)|[-> ->]]; [|reflexivity]. cbn [rbind].
      unfold d_get_balance, d_get_account, d_read_account, dbind, dask, dlift, dret, exec_get_balance. cbn [fst snd].
      rewrite (rad_get digest account_schema good_account_schema _ _ _ a (r_acc _ _ _ HR)).
      destruct (ad_get (x_acc x) a); reflexivity.
    - (* crash *)
      cbn [fst snd] in *. split; [reflexivity|]. unfold m_block in *.
      destruct (open_same s t r p HJ Hn0 Hok) as [(x & d & Em & Ed & HR & Hfr & Edb0 & D & L)|[Em Ed]]; rewrite Em, Ed in *; cbn [rbind] in *; [|split; [exact HJ|split; [reflexivity|discriminate]]].
      assert (addressed digest (dx_db d)) as Ha by (rewrite D; apply (j_addr _ _ HJ)).
      assert (quiet (d_exec digest show qs d ts).2) as Hqt.
      { intros v Hv. apply Hsz. cbn [ds_log]. apply elem_of_app. right. exact Hv. }
      pose proof (exec_ready (fun _ => canon_order) qs x d ts (fun _ => canon_ok) Hq HR Hqt) as Hg.
      destruct (exec digest root show (fun _ => canon_order) x ts) as [[r0 x']|e|] eqn:Eg; cbn [snd] in *.
      + destruct Hg as (d2 & x2 & -> & HR2 & D2 & ->). rewrite D in D2.
        assert (addressed digest (dx_db d2)) as Ha2 by (rewrite D2; apply (j_addr _ _ HJ)).
        assert (no_collision digest (flat_map parts (tries_of (commit root canon_order x2).2) ++ values (dx_db d2))) as Hc.
        { eapply coll_new; [exact Hn|reflexivity|]. rewrite D2. apply (j_vals _ _ HJ). }
        destruct (left_same canon_order (qs O) x2 d2 n canon_ok (Hq O) HR2 Ha2 Hc) as (Hsub & Ha' & Hv). rewrite D2 in Hsub, Hv.
        split; [|split; [exact Hsub|discriminate]]. constructor; cbn [ms_db ms_known ms_tries ds_db].
        * exact Ha'.
        * intros v Hv'. rewrite flat_map_app. apply elem_of_app. destruct (Hv v Hv') as [H|H]; [auto|]. left. apply (j_vals _ _ HJ), H.
        * intros r1 Hr. destruct (j_known _ _ HJ r1 Hr) as (T0 & A0 & B0 & E & Hd & Hh0 & Hs0). exists T0, A0, B0. split; [exact E|].
          split; [eapply dholds_mono; eassumption|]. split; [exact Hh0|]. intros m Hm. apply elem_of_app. left. apply Hs0, Hm.
        * intros r1 m E. destruct (j_kept _ _ HJ r1 m E) as [H1 H2]. split; [exact H1|]. apply elem_of_app. left. exact H2.
      + rewrite Hg. split; [|split; [reflexivity|discriminate]]. destruct HJ. constructor; cbn [ds_db]; assumption.
      + rewrite Hg. split; [|split; [reflexivity|discriminate]]. destruct HJ. constructor; cbn [ds_db]; assumption.
    - (* crash of the genesis *)
      cbn [fst snd] in *. split; [reflexivity|]. unfold m_genesis, m_open, d_open in *.
      destruct (from_empty_same digest (pm_chain p) (ds_db t) (pm_epoch p) (pm_price p) (pm_coinbase p) (ms_db s)) as (E0 & d & Ed & L & D & HR).
      rewrite E0, Ed in *. cbn [rbind] in *. set (x := MkExec _ _ _ _ _ _ _ _) in *.
      assert (addressed digest (dx_db d)) as Ha by (rewrite D; apply (j_addr _ _ HJ)).
      assert (quiet (d_create_genesis digest (qs 0%nat) (qs 1%nat) d g).2) as Hqt.
      { intros v Hv. apply Hsz. cbn [ds_log]. apply elem_of_app. right. exact Hv. }
      pose proof (genesis_ready canon_order canon_order (qs 0%nat) (qs 1%nat) x d g canon_ok canon_ok (Hq 0%nat) (Hq 1%nat) HR Hqt) as Hg.
      destruct (create_genesis digest root canon_order canon_order x g) as [[r0 x']|e|] eqn:Eg; cbn [snd] in *.
      + destruct Hg as (d2 & x2 & -> & HR2 & D2 & ->). rewrite D in D2.
        assert (addressed digest (dx_db d2)) as Ha2 by (rewrite D2; apply (j_addr _ _ HJ)).
        assert (no_collision digest (flat_map parts (tries_of (commit root canon_order x2).2) ++ values (dx_db d2))) as Hc.
        { eapply coll_new; [exact Hn|reflexivity|]. rewrite D2. apply (j_vals _ _ HJ). }
        destruct (left_same canon_order (qs 1%nat) x2 d2 n canon_ok (Hq 1%nat) HR2 Ha2 Hc) as (Hsub & Ha' & Hv). rewrite D2 in Hsub, Hv.
        split; [|split; [exact Hsub|discriminate]]. constructor; cbn [ms_db ms_known ms_tries ds_db].
        * exact Ha'.
        * intros v Hv'. rewrite flat_map_app. apply elem_of_app. destruct (Hv v Hv') as [H|H]; [auto|]. left. apply (j_vals _ _ HJ), H.
        * intros r1 Hr. destruct (j_known _ _ HJ r1 Hr) as (T0 & A0 & B0 & E & Hd & Hh0 & Hs0). exists T0, A0, B0. split; [exact E|].
          split; [eapply dholds_mono; eassumption|]. split; [exact Hh0|]. intros m Hm. apply elem_of_app. left. apply Hs0, Hm.
        * intros r1 m E. destruct (j_kept _ _ HJ r1 m E) as [H1 H2]. split; [exact H1|]. apply elem_of_app. left. exact H2.
      + rewrite Hg. split; [|split; [reflexivity|discriminate]]. destruct HJ. constructor; cbn [ds_db]; assumption.
      + rewrite Hg. split; [|split; [reflexivity|discriminate]]. destruct HJ. constructor; cbn [ds_db]; assumption.
  Qed.

  Lemma step_leaves s o r x : leaves digest show s o = Some (r, x) -> ms_tries (m_step digest show s o).2 = ms_tries s ++ tries_of x.
  Proof.
    destruct o as [p g|root0 p ts|root0 p a id|root0 p ts n|p g n]; cbn [leaves m_step snd]; try discriminate.
    - destruct (m_genesis digest s p g) as [[r0 x0]|e|]; try discriminate. intros [= <- <-]. reflexivity.
    - destruct (m_block digest show s root0 p ts) as [[r0 x0]|e|]; try discriminate. intros [= <- <-]. reflexivity.
  Qed.
  Lemma run_tries l : forall s, exists l', ms_tries (m_run digest show s l).2 = ms_tries s ++ l'.
  Proof.
    induction l as [|o l IH]; intros s; [exists []; rewrite app_nil_r; reflexivity|]. cbn [m_run]. destruct (step_tries s o) as (l1 & E1).
    destruct (m_step digest show s o) as [r s']. cbn [snd] in E1. destruct (IH s') as (l2 & E2). destruct (m_run digest show s' l) as [rs s'']. cbn [snd] in *.
    exists (l1 ++ l2). rewrite E2, E1, app_assoc. reflexivity.
  Qed.
  Lemma run_log l : forall qss t, exists l', ds_log (d_run digest show qss t l).2 = ds_log t ++ l'.
  Proof.
    induction l as [|o l IH]; intros qss t; [exists []; rewrite app_nil_r; reflexivity|]. cbn [d_run]. destruct (step_log (qss O) t o) as (l1 & E1).
    destruct (d_step digest show (qss O) t o) as [r s']. cbn [snd] in E1. destruct (IH (fun n => qss (S n)) s') as (l2 & E2). destruct (d_run digest show (fun n => qss (S n)) s' l) as [rs s'']. cbn [snd] in *.
    exists (l1 ++ l2). rewrite E2, E1, app_assoc. reflexivity.
  Qed.
  Lemma run_same l : forall qss s t, dorders_ok qss -> J s t -> ops_ok digest show s l ->
    nodes_apart digest (m_run digest show s l).2 -> sizes_ok (d_run digest show qss t l).2 ->
    (d_run digest show qss t l).1 = (m_run digest show s l).1 /\ J (m_run digest show s l).2 (d_run digest show qss t l).2 /\
    ds_db t ⊆ ds_db (d_run digest show qss t l).2 /\
    forall l1 o l2 r x, l = l1 ++ o :: l2 -> leaves digest show (m_run digest show s l1).2 o = Some (r, x) ->
      r = root (x_trie x) /\ stored_in digest x (ds_db (d_run digest show qss t l).2) /\
      forall m, m ∈ tries_of x -> m ∈ ms_tries (m_run digest show s l).2.
  Proof.
    induction l as [|o l IH]; intros qss s t Hq HJ Hok Hn Hsz.
    { split; [reflexivity|]. split; [exact HJ|]. split; [reflexivity|]. intros l1 o l2 r x E. destruct l1; discriminate E. }
    cbn [m_run d_run] in *. destruct Hok as [Ho Hl].
    destruct (run_tries l (m_step digest show s o).2) as (l1 & E1). destruct (run_log l (fun n => qss (S n)) (d_step digest show (qss O) t o).2) as (l2 & E2).
    pose proof (step_same (qss O) s t o (Hq O) HJ Ho) as Hst. pose proof (step_leaves s o) as Hlv.
    destruct (m_step digest show s o) as [r s'] eqn:Em, (d_step digest show (qss O) t o) as [r' t']. cbn [fst snd] in *.
    specialize (IH (fun n => qss (S n)) s' t' (fun i => Hq (S i))).
    destruct (m_run digest show s' l) as [rs s''] eqn:Er, (d_run digest show (fun n => qss (S n)) t' l) as [rs' t'']. cbn [fst snd] in *.
    destruct Hst as (-> & HJ' & Hsub & Hle).
    - eapply apart_prefix; eassumption.
    - intros v Hv. apply Hsz. rewrite E2. apply elem_of_app. left. exact Hv.
    - destruct (IH HJ' Hl Hn Hsz) as (-> & HJ'' & Hsub' & Hle'). split; [reflexivity|]. split; [exact HJ''|]. split; [etransitivity; eassumption|].
      intros [|o1 k1] o2 k2 r1 x1 E Hlv1; cbn [app] in E.
      + injection E as <- <-. cbn [m_run snd] in Hlv1. destruct (Hle r1 x1 Hlv1) as [H1 H2]. split; [exact H1|]. split; [eapply dholds_mono; eassumption|].
        intros m Hm. rewrite E1. apply elem_of_app. left. rewrite (Hlv r1 x1 Hlv1). apply elem_of_app. right. exact Hm.
      + injection E as <- ->. cbn [m_run] in Hlv1. rewrite Em in Hlv1.
        apply (Hle' k1 o2 k2 r1 x1 eq_refl). destruct (m_run digest show s' k1) as [rs1 s1]. exact Hlv1.
  Qed.
  Lemma J0 : J mstate0 dstate0.
  Proof.
    constructor; cbn [ms_db ms_known ms_tries ds_db mstate0 dstate0].
    - intros h d H. rewrite lookup_empty in H. discriminate.
    - intros v H. unfold values in H. rewrite map_to_list_empty in H. apply elem_of_nil in H as [].
    - intros r H. apply elem_of_nil in H as [].
    - intros r m H. rewrite lookup_empty in H. discriminate.
  Qed.
End Proof.
