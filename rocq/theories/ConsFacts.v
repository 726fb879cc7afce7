(** * What each call of Consensus.v does to the node, in one line each. *)
From Verif Require Import Base BaseFacts Hex Types Rlp RlpFacts FixedCodec FixedCodecFacts CodecProps StateAdapter Executor Mempool
  Merkle Bincode ConsMsg Proto ProtoFacts Wire WireFacts Storage StorageSpec StorageFacts StorageProps Consensus.
Local Open Scope N_scope.

Lemma set_disk_same n : set_disk n (nd_disk n) = n.
Proof. destruct n; reflexivity. Qed.
Lemma set_disk_twice n a b : set_disk (set_disk n a) b = set_disk n b.
Proof. reflexivity. Qed.

Lemma persist_last (d : durable) ws : List.last (persist_all d ws) d = (apply_writes d.1 ws, d.2).
Proof.
  revert d; induction ws as [|w ws IH]; intros d; [destruct d; reflexivity|].
  cbn [persist_all]. specialize (IH (apply_write d.1 w, d.2)).
  cbn [fst snd] in IH. unfold apply_writes in *. cbn [fold_left].
  rewrite <- IH. destruct (persist_all _ ws) as [|x l] eqn:E; [reflexivity|].
  cbn [List.last]. clear. revert x; induction l as [|y l IH]; intros x; [reflexivity|]. cbn [List.last] in *. apply IH.
Qed.

Lemma awrites_spec ws n :
  awrites ws n = (Ok tt, set_disk n (apply_writes (nd_disk n).1 ws, (nd_disk n).2), persist_all (nd_disk n) ws).
Proof.
  revert n; induction ws as [|w ws IH]; intros n; cbn [awrites persist_all].
  - unfold aret. cbn. rewrite <- surjective_pairing, set_disk_same. reflexivity.
  - unfold abind, apersist. rewrite IH. reflexivity.
Qed.

(** ** Executed blocks contain only transfers and asset deployments *)
Section Exec.
  Context (digest : bytes -> hash) (root_of : gmap bytes bytes -> hash) (show : exec_err -> rstring).

  Lemma bind_ok {A B} (m : M A) (k : A -> M B) s b s' : bind m k s = (Ok b, s') -> exists a s1, m s = (Ok a, s1) /\ k a s1 = (Ok b, s').
  Proof. unfold bind. destruct (m s) as [[a|e|] s1]; try discriminate. eauto. Qed.

  Lemma dispatch_plain t s r s' : dispatch digest t s = (Ok r, s') ->
    tx_plain t /\ match r with RDeploy _ ct => ct = CtAsset | _ => True end.
  Proof.
    unfold dispatch, tx_plain. destruct (rt_action (st_raw t)) as [to c|sp a mx|code ct|c m a o].
    - intros H. split; [exact I|]. unfold handle_transfer in H.
      apply bind_ok in H as (c0 & s0 & _ & H). destruct (ic_carrying c0); [|discriminate H].
      do 5 (apply bind_ok in H as (? & ? & _ & H)). injection H as <- _. exact I.
    - intros H. discriminate H.
    - unfold handle_deploy. destruct ct; try (intros H; discriminate H). intros H. split; [reflexivity|].
      do 4 (apply bind_ok in H as (? & ? & _ & H)). injection H as <- _. reflexivity.
    - intros H. discriminate H.
  Qed.
  Lemma dispatch_bad t s : ~ tx_plain t -> (dispatch digest t s).1 = Panic.
  Proof.
    unfold dispatch, tx_plain. destruct (rt_action (st_raw t)) as [to c|sp a mx|code ct|c m a o]; intros H; try tauto.
    destruct ct; [exfalso; apply H; reflexivity|..]; reflexivity.
  Qed.
  Lemma tx_plain_dec t : {tx_plain t} + {~ tx_plain t}.
  Proof. unfold tx_plain. destruct (rt_action (st_raw t)); try (left; exact I). destruct (decide (ctype = CtAsset)); auto. Qed.

  Lemma exec_tx_plain o x t r x' : exec_tx digest show o x t = Ok (r, x') ->
    tx_plain t /\ receipt_plain r /\ rc_tx_hash r = st_tx_hash t.
  Proof.
    unfold exec_tx. destruct (gen_invoke_ctx digest x t) as [ic|e|]; cbn [rbind]; try discriminate.
    destruct (dispatch digest t (x, ic)) as [[rr|e|] [x1 c1]] eqn:E; cbn [rbind]; [| |intros X; discriminate X].
    - pose proof (dispatch_plain _ _ _ _ E) as [Hp Hr].
      destruct (inc_nonce _) as [[[]|e|] s]; cbn [rbind]; try discriminate.
      destruct s as [x2 c2]. intros [= <- <-]. split; [exact Hp|]. split; [|reflexivity].
      unfold receipt_plain. cbn [rc_result]. exact Hr.
    - assert (tx_plain t) as Hp.
      { destruct (tx_plain_dec t) as [H|H]; [exact H|]. pose proof (dispatch_bad t (x, ic) H) as B. rewrite E in B. discriminate B. }
      destruct (inc_nonce _) as [[[]|e'|] s]; cbn [rbind]; try discriminate.
      destruct s as [x2 c2]. intros [= <- <-]. split; [exact Hp|]. split; [exact I|reflexivity].
  Qed.

  Lemma exec_txs_plain os x ts rs x' : exec_txs digest show os x ts = Ok (rs, x') ->
    Forall tx_plain ts /\ Forall receipt_plain rs /\ map rc_tx_hash rs = map st_tx_hash ts.
  Proof.
    revert os x rs x'; induction ts as [|t ts IH]; intros os x rs x'; cbn [exec_txs].
    - intros [= <- <-]. repeat split; constructor.
    - destruct (exec_tx digest show (os O) x t) as [[r x1]|e|] eqn:E; cbn [rbind]; try discriminate.
      destruct (exec_txs digest show _ x1 ts) as [[rs1 x2]|e|] eqn:E2; cbn [rbind]; try discriminate.
      intros [= <- <-]. apply exec_tx_plain in E as (A & B & C). apply IH in E2 as (A2 & B2 & C2).
      repeat split; try constructor; auto. cbn [map]. congruence.
  Qed.

  Lemma exec_plain os x ts resp x' : exec digest root_of show os x ts = Ok (resp, x') ->
    Forall tx_plain ts /\ Forall receipt_plain (er_receipts resp) /\ map rc_tx_hash (er_receipts resp) = map st_tx_hash ts.
  Proof.
    unfold exec. destruct (exec_txs digest show _ x ts) as [[rs x1]|e|] eqn:E; cbn [rbind]; try discriminate.
    destruct (commit root_of (os O) _) as [root x3]. intros [= <- <-]. cbn [er_receipts].
    apply exec_txs_plain in E as (A & B & C). split; [exact A|]. split.
    - apply Forall_map. eapply Forall_impl; [exact B|]. intros r H. exact H.
    - rewrite map_map. exact C.
  Qed.
End Exec.

(** ** The pool is keyed by transaction hash *)
Definition pool_keyed (p : mempool) : Prop :=
  (forall h w, tc_map (mp_tc p) !! h = Some w -> w_hash w = h) /\
  (forall h t, mp_cb p !! h = Some t -> st_tx_hash t = h).

Lemma keyed_lookup p h t : pool_keyed p -> mp_lookup p h = Some t -> st_tx_hash t = h.
Proof.
  intros [H1 H2]. unfold mp_lookup, tc_get. destruct (tc_map (mp_tc p) !! h) as [w|] eqn:E; cbn [fmap option_fmap option_map].
  - intros [= <-]. apply (H1 _ _ E).
  - apply H2.
Qed.
Lemma keyed_full p hs txs : pool_keyed p -> mp_get_full_txs p hs = Ok txs -> map st_tx_hash txs = hs.
Proof.
  intros Hk. unfold mp_get_full_txs. destruct (decide _) as [L|]; [|discriminate]. intros [= <-].
  induction hs as [|h hs IH]; [reflexivity|]. cbn [omap list_omap] in *.
  destruct (mp_lookup p h) as [t|] eqn:E.
  - cbn [map length] in *. f_equal; [apply (keyed_lookup _ _ _ Hk E)|]. apply IH. lia.
  - exfalso. cbn [length] in L. clear -L.
    assert (forall l : list hash, (length (omap (mp_lookup p) l) <= length l)%nat) as X.
    { induction l as [|a l IH]; cbn [omap list_omap length]; [lia|]. destruct (mp_lookup p a); cbn [length]; lia. }
    specialize (X hs). unfold hash in *. lia.
Qed.

Lemma tc_insert_keyed c t b : (forall h w, tc_map c !! h = Some w -> w_hash w = h) ->
  forall h w, tc_map (tc_insert c t b).2 !! h = Some w -> w_hash w = h.
Proof.
  intros H h w. unfold tc_insert. destruct (tc_map c !! st_tx_hash t) eqn:E; [apply H|].
  destruct (_ <=? _)%nat.
  - cbn [snd tc_set_map tc_map]. intros X. apply lookup_delete_Some in X as [Hn X].
    rewrite lookup_insert_ne in X by exact Hn. apply (H _ _ X).
  - cbn [snd]. unfold tc_set_queues. destruct (tc_zero _); cbn [tc_map]; intros X;
      (apply lookup_insert_Some in X as [[<- <-]|[_ X]]; [reflexivity|apply (H _ _ X)]).
Qed.
Lemma tc_inserts_keyed b txs : forall c, (forall h w, tc_map c !! h = Some w -> w_hash w = h) ->
  forall h w, tc_map (fold_left (fun c t => (tc_insert c t b).2) txs c) !! h = Some w -> w_hash w = h.
Proof.
  induction txs as [|t txs IH]; intros c H; [exact H|]. cbn [fold_left]. apply IH. apply tc_insert_keyed, H.
Qed.
Lemma map_deletes_sub {V} (m : gmap hash V) hs h v : map_deletes m hs !! h = Some v -> m !! h = Some v.
Proof.
  unfold map_deletes. revert m; induction hs as [|k hs IH]; intros m; [auto|]. cbn [fold_left]. intros H.
  apply IH in H. apply lookup_delete_Some in H as [_ H]. exact H.
Qed.

Section Pool.
  Context (digest : bytes -> hash) (verify : bytes -> bytes -> bytes -> bool).

  Lemma keyed_new n g : pool_keyed (mp_new n g).
  Proof. split; intros h x H; cbn in H; rewrite lookup_empty in H; discriminate. Qed.
  Lemma keyed_insert gap p net t e b : pool_keyed p -> pool_keyed (mp_insert digest verify gap p net t e b).2.
  Proof.
    intros [H1 H2]. unfold mp_insert. destruct (insert_checks digest verify gap p e t); try exact (conj H1 H2).
    pose proof (tc_insert_keyed (mp_tc p) t false H1) as X.
    destruct (tc_insert (mp_tc p) t false) as [r c]. cbn [snd] in X.
    destruct r; try destruct net; split; cbn [snd mp_set_tc mp_tc mp_cb]; assumption.
  Qed.
  Lemma keyed_package p limit e : pool_keyed p -> pool_keyed (mp_package p limit e).2.
  Proof.
    intros [H1 H2]. unfold mp_package. destruct (en_latest e) as [[ch ep]|x|]; try exact (conj H1 H2).
    unfold tc_package.
    match goal with |- context [pk_loop ?a ?b ?c ?d ?e ?f ?g] => destruct (pk_loop a b c d e f g) as [[r rest] cand] end.
    destruct r as [s|x|]; split; cbn [snd mp_set_tc mp_tc mp_cb]; try assumption.
    - cbn [tc_map]. intros h w H. apply map_deletes_sub in H. apply (H1 _ _ H).
    - unfold tc_set_queues. destruct (tc_zero _); cbn [tc_map]; exact H1.
    - unfold tc_set_queues. destruct (tc_zero _); cbn [tc_map]; exact H1.
  Qed.
  Lemma keyed_flush p hs : pool_keyed p -> pool_keyed (mp_flush p hs).
  Proof.
    intros [H1 H2]. split; unfold mp_flush; cbn [mp_tc mp_cb tc_flush tc_map].
    - intros h w H. apply map_deletes_sub in H. apply (H1 _ _ H).
    - intros h t H. rewrite lookup_empty in H. discriminate.
  Qed.
  Lemma keyed_ensure p hs pull : pool_keyed p -> pool_keyed (mp_ensure_order_txs p hs pull).2.
  Proof.
    intros [H1 H2]. unfold mp_ensure_order_txs. destruct (tc_show_unknown _ _); [exact (conj H1 H2)|].
    destruct (pull _) as [txs|x|]; try exact (conj H1 H2). destruct (decide _); [|exact (conj H1 H2)].
    split; cbn [snd mp_tc mp_cb]; [exact H1|]. clear -H2. revert H2. generalize (mp_cb p).
    induction txs as [|t txs IH]; intros m H; [exact H|]. cbn [fold_left]. apply IH.
    intros k u. unfold cb_insert. destruct (m !! st_tx_hash t); [apply H|].
    intros X. apply lookup_insert_Some in X as [[<- <-]|[_ X]]; [reflexivity|apply (H _ _ X)].
  Qed.
  Lemma keyed_sync p hs pull : pool_keyed p -> pool_keyed (mp_sync_propose_txs p hs pull).2.
  Proof.
    intros [H1 H2]. unfold mp_sync_propose_txs. destruct (tc_show_unknown _ _); [exact (conj H1 H2)|].
    destruct (pull _) as [txs|x|]; try exact (conj H1 H2).
    split; cbn [snd mp_set_tc mp_tc mp_cb]; [|exact H2]. apply tc_inserts_keyed, H1.
  Qed.
End Pool.

(** ** The calls *)
Section Calls.
  Context (digest : bytes -> hash) (root_of : gmap bytes bytes -> hash) (show : exec_err -> rstring)
          (verify : bytes -> bytes -> bytes -> bool) (shapes : nat -> shape).
  Context (cf : config).
  Notation run_call := (run_call digest root_of show verify shapes cf).

  (** Calls that only touch the pool and the exempted hashes. *)
  Definition light_call (c : call) : bool :=
    match c with CallInsert _ _ _ | CallPropose _ _ | CallCheck _ _ _ _ => true | _ => false end.

  Definition lightly (n n' : node) : Prop :=
    exists p x, n' = MkNode (nd_status n) x p (nd_disk n) (nd_busy n) (nd_out n) /\
      (pool_keyed (nd_pool n) -> pool_keyed p).
  Lemma lightly_refl n : lightly n n.
  Proof. exists (nd_pool n), (nd_exempt n). split; [destruct n; reflexivity|auto]. Qed.
  Lemma lightly_pool n p : (pool_keyed (nd_pool n) -> pool_keyed p) -> lightly n (set_pool n p).
  Proof. intros H. exists p, (nd_exempt n). split; [reflexivity|exact H]. Qed.
  Lemma lightly_trans a b c : lightly a b -> lightly b c -> lightly a c.
  Proof.
    intros (p & x & -> & H) (q & y & -> & H2). exists q, y. split; [reflexivity|]. cbn [nd_pool] in H2. auto.
  Qed.

  Lemma get_full_light hs n r n' t : get_full_txs hs n = (r, n', t) -> n' = n /\ t = [].
  Proof.
    unfold get_full_txs, abind, aget, alift. destruct (map_err _ _); intros [= <- <- <-]; auto.
  Qed.
  Lemma sync_light hs pl n r n' t : sync_txs hs pl n = (r, n', t) -> lightly n n' /\ t = [].
  Proof.
    unfold sync_txs. pose proof (keyed_sync (nd_pool n) hs (fun _ => pl)) as K.
    destruct (mp_sync_propose_txs _ _ _) as [r0 p]. intros [= <- <- <-]. split; [apply lightly_pool, K|reflexivity].
  Qed.
  Lemma check_light hs pl n r n' t : check_txs hs pl n = (r, n', t) -> lightly n n' /\ t = [].
  Proof.
    unfold check_txs. pose proof (keyed_ensure (nd_pool n) hs (fun _ => pl)) as K.
    destruct (mp_ensure_order_txs _ _ _) as [r0 p]. intros [= <- <- <-]. split; [apply lightly_pool, K|reflexivity].
  Qed.

  Lemma light_call_out c n r n' t : light_call c = true -> run_call c n = (r, n', t) -> lightly n n' /\ t = [].
  Proof.
    destruct c as [net tx sent|id now|h p pl1 pl2| | | |]; try discriminate; intros _; cbn [Consensus.run_call].
    - pose proof (keyed_insert digest verify (cf_gap cf) (nd_pool n) net tx (env_of digest (nd_disk n)) sent) as K.
      destruct (mp_insert _ _ _ _ _ _ _ _) as [r0 p]. intros [= <- <- <-]. split; [apply lightly_pool, K|reflexivity].
    - unfold get_epoch, abind, aget, get_txs_from_mempool, aupd, aret, alift.
      pose proof (keyed_package (nd_pool n) (cs_limit (nd_status n)) (env_of digest (nd_disk n))) as K.
      destruct (mp_package _ _ _) as [r0 p]. cbn [snd] in K.
      destruct r0 as [[o q]|e|]; cbn [map_err]; [destruct (decide _)|..]; intros [= <- <- <-];
        (split; [|reflexivity]); try (apply lightly_pool, K).
      eexists p, _. split; [reflexivity|exact K].
    - unfold check_epoch, abind, aget.
      destruct (decide (h ∈ nd_exempt n)); unfold aret.
      + destruct (get_full_txs _ n) as [[r1 n1] t1] eqn:E. apply get_full_light in E as [-> ->].
        destruct r1; intros [= <- <- <-]; (split; [apply lightly_refl|reflexivity]).
      + destruct (sync_txs _ _ n) as [[r1 n1] t1] eqn:E1. apply sync_light in E1 as [L1 ->].
        destruct r1 as [[]|e|]; [|intros [= <- <- <-]; auto..].
        destruct (check_txs _ _ n1) as [[r2 n2] t2] eqn:E2. apply check_light in E2 as [L2 ->].
        destruct r2 as [[]|e|]; [|intros [= <- <- <-]; eauto using lightly_trans..].
        destruct (get_full_txs _ n2) as [[r3 n3] t3] eqn:E3. apply get_full_light in E3 as [-> ->].
        destruct r3; intros [= <- <- <-]; eauto using lightly_trans.
  Qed.

  (** [commit], first half *)
  Definition commit_proof (c : commit_msg) (eh : hash) : proof :=
    MkProof (cm_proof_epoch_id c) (cm_round c) eh (cm_signature c) (cm_bitmap c).
  Definition with_proof (d : durable) (p : proof) : durable :=
    (apply_writes d.1 (update_latest_proof rocks_col digest p), d.2).
  Inductive commit_start_spec (id : u64) (c : commit_msg) (n : node) : res cn_err unit -> node -> list durable -> Prop :=
  | cs_refused r : is_ok r = false -> commit_start_spec id c n r n []
  | cs_no_txs eh r : is_ok r = false ->
      nd_busy n = Idle -> hash_from_bytes (cm_epoch_hash c) = Ok eh ->
      commit_start_spec id c n r (set_disk n (with_proof (nd_disk n) (commit_proof c eh)))
        [with_proof (nd_disk n) (commit_proof c eh)]
  | cs_started eh txs : nd_busy n = Idle -> hash_from_bytes (cm_epoch_hash c) = Ok eh ->
      mp_get_full_txs (nd_pool n) (ep_ordered_tx_hashes (pl_epoch (cm_pill c))) = Ok txs ->
      commit_start_spec id c n (Ok tt)
        (set_busy (set_pool (set_disk n (with_proof (nd_disk n) (commit_proof c eh)))
                     (mp_flush (nd_pool n) (ep_ordered_tx_hashes (pl_epoch (cm_pill c)))))
           (Committing id (cm_pill c) (commit_proof c eh) txs))
        [with_proof (nd_disk n) (commit_proof c eh)].

  Lemma commit_start_out id c n r n' t : commit_start digest id c n = (r, n', t) -> commit_start_spec id c n r n' t.
  Proof.
    unfold commit_start. unfold abind at 1. unfold aget at 1.
    destruct (nd_busy n) eqn:Eb; [|intros [= <- <- <-]; constructor; reflexivity..].
    unfold abind at 1. unfold alift at 1.
    destruct (hash_from_bytes (cm_epoch_hash c)) as [eh|e|] eqn:Eh; cbn [map_err];
      [|intros [= <- <- <-]; constructor; reflexivity..].
    fold (commit_proof c eh). unfold abind at 1. unfold save_proof. rewrite awrites_spec.
    fold (with_proof (nd_disk n) (commit_proof c eh)).
    unfold abind at 1. unfold get_full_txs. unfold abind at 1. unfold aget, alift. cbn [nd_pool set_disk].
    change (persist_all (nd_disk n) (update_latest_proof rocks_col digest (commit_proof c eh)))
      with [with_proof (nd_disk n) (commit_proof c eh)].
    destruct (mp_get_full_txs _ _) as [txs|e|] eqn:Eg; cbn [map_err]; intros [= <- <- <-].
    - apply cs_started; assumption.
    - apply cs_no_txs; try assumption; reflexivity.
    - apply cs_no_txs; try assumption; reflexivity.
  Qed.

  (** Execution and saving of an epoch: shared by [commit] and the
      synchronisation. *)
  Definition applied_writes (e : epoch) (resp : exec_resp) (txs : list signed_tx) :=
    insert_receipts rocks_col (er_receipts resp) ++ insert_transactions rocks_col txs ++ insert_epoch rocks_col digest e.
  Definition executed (os : nat -> iter_order) (tr : trie_db) (root : hash) (id price : u64) (cb : address)
    (txs : list signed_tx) (resp : exec_resp) (tr' : trie_db) : Prop :=
    exists x x', Executor.from_root digest (cf_chain_id cf) root tr id price cb = Ok x /\
      exec digest root_of show os x txs = Ok (resp, x') /\ tr' = x_db x'.
  Definition applied_node (n : node) (id : u64) (e : epoch) (pf : proof) (resp : exec_resp) (txs : list signed_tx) (tr' : trie_db) : node :=
    set_status (set_disk n (apply_writes (nd_disk n).1 (applied_writes e resp txs), tr'))
      (new_status digest shapes (nd_status n) id e pf resp).

  Lemma execute_out os root id price cb txs n r n' t :
    execute digest root_of show cf os root id price cb txs n = (r, n', t) ->
    (is_ok r = false /\ n' = n /\ t = []) \/
    (exists resp tr', r = Ok resp /\ executed os (nd_disk n).2 root id price cb txs resp tr' /\
       n' = set_disk n ((nd_disk n).1, tr') /\ t = [((nd_disk n).1, tr')]).
  Proof.
    unfold execute. unfold abind at 1. unfold aget at 1. unfold abind at 1. unfold alift at 1.
    destruct (Executor.from_root _ _ _ _ _ _ _) as [x|e|] eqn:Ex; cbn [map_err]; [|intros [= <- <- <-]; left; auto..].
    unfold abind at 1. unfold alift at 1.
    destruct (exec _ _ _ _ _ _) as [[resp x']|e|] eqn:Ee; cbn [map_err]; [|intros [= <- <- <-]; left; auto..].
    intros [= <- <- <-]. right. exists resp, (x_db x'). split; [reflexivity|]. split; [exists x, x'; auto|auto].
  Qed.

  Lemma apply_writes_app m a b : apply_writes m (a ++ b) = apply_writes (apply_writes m a) b.
  Proof. unfold apply_writes. apply fold_left_app. Qed.
  Lemma persist_app d a b : persist_all d (a ++ b) = persist_all d a ++ persist_all (apply_writes d.1 a, d.2) b.
  Proof.
    revert d; induction a as [|w a IH]; intros d; cbn [app persist_all].
    - unfold apply_writes. cbn [fold_left]. rewrite <- surjective_pairing. reflexivity.
    - rewrite IH. reflexivity.
  Qed.

  Lemma update_status_out id e pf resp txs n :
    update_status digest shapes id e pf resp txs n =
    (Ok tt, applied_node n id e pf resp txs (nd_disk n).2, persist_all (nd_disk n) (applied_writes e resp txs)).
  Proof.
    unfold update_status, save_receipts, save_signed_txs, save_epoch. unfold abind at 1. rewrite awrites_spec.
    unfold abind at 1. rewrite awrites_spec. unfold abind at 1. rewrite awrites_spec. unfold aupd.
    rewrite app_nil_r. cbn [nd_disk set_disk fst snd]. unfold applied_node, applied_writes.
    rewrite !apply_writes_app, !persist_app. cbn [fst snd]. reflexivity.
  Qed.

  (** [commit], second half *)
  Definition committed_out (n : node) (id : u64) : list out_msg :=
    [Rich (wrap64 (id + 1)); RichStatus (wrap64 (id + 1)) (cs_interval (nd_status n)) (authority_list (cs_validators (nd_status n)))].
  Inductive commit_finish_spec (os : nat -> iter_order) (sent : res cn_err unit) (n : node) : res cn_err unit -> node -> list durable -> Prop :=
  | cfi_not_running : commit_finish_spec os sent n (Err CNotRunning) n []
  | cfi_failed id p pf txs r : nd_busy n = Committing id p pf txs -> is_ok r = false ->
      commit_finish_spec os sent n r (set_busy n Idle) []
  | cfi_done id p pf txs resp tr' l : nd_busy n = Committing id p pf txs ->
      executed os (nd_disk n).2 (cs_state_root (nd_status n)) id (cs_price (nd_status n))
        (AUser (eh_proposer (ep_header (pl_epoch p)))) txs resp tr' ->
      l = (if is_ok sent then committed_out n id else [Rich (wrap64 (id + 1))]) ->
      commit_finish_spec os sent n sent
        (MkNode (new_status digest shapes (nd_status n) id (pl_epoch p) pf resp) (nd_exempt n) (nd_pool n)
           (apply_writes (nd_disk n).1 (applied_writes (pl_epoch p) resp txs), tr') Idle (nd_out n ++ l))
        (((nd_disk n).1, tr') :: persist_all ((nd_disk n).1, tr') (applied_writes (pl_epoch p) resp txs)).

  Lemma commit_finish_out os sent n r n' t :
    commit_finish digest root_of show shapes cf os sent n = (r, n', t) -> commit_finish_spec os sent n r n' t.
  Proof.
    unfold commit_finish. unfold abind at 1. unfold aget at 1.
    destruct (nd_busy n) as [|id p pf txs|] eqn:Eb; [intros [= <- <- <-]; constructor| |intros [= <- <- <-]; constructor].
    unfold abind at 1. unfold aupd at 1. unfold abind at 1.
    destruct (execute _ _ _ _ _ _ _ _ _ _ (set_busy n Idle)) as [[r1 n1] t1] eqn:E.
    apply execute_out in E as [(Hr & -> & ->)|(resp & tr' & -> & Hx & -> & ->)].
    - destruct r1; [discriminate Hr|..]; intros [= <- <- <-]; (eapply cfi_failed; [exact Eb|reflexivity]).
    - unfold abind at 1. rewrite update_status_out. unfold abind at 1. unfold aupd at 1. unfold abind at 1. unfold alift at 1.
      cbn [nd_disk set_disk set_busy fst snd] in *.
      destruct sent as [[]|e|]; unfold aupd; cbn [app]; rewrite ?app_nil_r; intros [= <- <- <-].
      + pose proof (@cfi_done os (Ok tt) n id p pf txs resp tr' _ Eb Hx eq_refl) as X. cbn [is_ok] in X.
        match goal with |- commit_finish_spec _ _ _ _ ?a _ => match type of X with commit_finish_spec _ _ _ _ ?b _ =>
          assert (a = b) as -> end end; [|exact X].
        unfold add_out, applied_node, committed_out.
        cbn [nd_status nd_exempt nd_pool nd_disk nd_busy nd_out set_status set_disk set_busy fst snd].
        rewrite <- app_assoc. reflexivity.
      + exact (@cfi_done os (Err e) n id p pf txs resp tr' _ Eb Hx eq_refl).
      + exact (@cfi_done os Panic n id p pf txs resp tr' _ Eb Hx eq_refl).
  Qed.

  (** Synchronisation: its start *)
  Inductive sync_start_spec (first : res cn_err rpc_response) (n : node) : res cn_err unit -> node -> Prop :=
  | ss_same r : sync_start_spec first n r n
  | ss_genesis rich e : nd_busy n = Idle ->
      get_latest_epoch rocks_col digest (nd_disk n).1 = Ok e -> eh_epoch_id (ep_header e) = wrap64 0 ->
      sync_start_spec first n (Ok tt)
        (set_busy n (Syncing (wrap64 1) rich (hash_from_empty digest) (hash_from_empty digest)))
  | ss_linked rich id e f : nd_busy n = Idle -> id <> wrap64 0 ->
      id = match get_latest_epoch rocks_col digest (nd_disk n).1 with
           | Ok e => eh_epoch_id (ep_header e) | _ => wrap64 1 end ->
      get_epoch_by_epoch_id rocks_col (nd_disk n).1 id = Ok e ->
      first = Ok (RpEpoch f) -> eh_pre_hash (ep_header f) = epoch_hash digest e ->
      sync_start_spec first n (Ok tt)
        (set_busy n (Syncing (wrap64 (id + 1)) rich (epoch_hash digest e) (eh_state_root (ep_header e)))).

  Lemma sync_start_out msg first n r n' t : sync_start digest msg first n = (r, n', t) ->
    sync_start_spec first n r n' /\ t = [].
  Proof.
    unfold sync_start. unfold abind at 1. unfold aget at 1.
    set (cur := match get_latest_epoch rocks_col digest (nd_disk n).1 with
                | Ok e => eh_epoch_id (ep_header e) | _ => wrap64 1 end).
    destruct (nd_busy n) as [|id p pf txs|a b c d] eqn:Eb.
    3:{ intros [= <- <- <-]. split; [constructor|reflexivity]. }
    2:{ unfold abind at 1, alift at 1. destruct (map_err _ _) as [inner|e|];
          [|intros [= <- <- <-]; (split; [constructor|reflexivity])..].
        cbn zeta. destruct (_ <=? _); intros [= <- <- <-]; (split; [constructor|reflexivity]). }
    unfold abind at 1, alift at 1. destruct (map_err _ _) as [inner|e|];
      [|intros [= <- <- <-]; (split; [constructor|reflexivity])..].
    cbn zeta. destruct (_ <=? _); [intros [= <- <- <-]; (split; [constructor|reflexivity])|].
    destruct (decide (cur = wrap64 0)) as [E0|E0].
    - rewrite E0. intros [= <- <- <-]. split; [|reflexivity].
      destruct (get_latest_epoch rocks_col digest (nd_disk n).1) as [e|x|] eqn:El; [|discriminate E0..].
      exact (ss_genesis first n _ e Eb El E0).
    - unfold abind at 1, alift at 1.
      destruct (get_epoch_by_epoch_id rocks_col (nd_disk n).1 cur) as [e|x|] eqn:Ee; cbn [map_err];
        [|intros [= <- <- <-]; (split; [constructor|reflexivity])..].
      unfold abind at 1, alift at 1. unfold pull_reply_epoch.
      destruct first as [[f|l]|x|] eqn:Ef; try (intros [= <- <- <-]; (split; [constructor|reflexivity])).
      destruct (decide _) as [Hh|Hh]; [|intros [= <- <- <-]; (split; [constructor|reflexivity])].
      intros [= <- <- <-]. split; [|reflexivity].
      exact (ss_linked _ n _ cur e f Eb E0 eq_refl Ee eq_refl (eq_sym Hh)).
  Qed.

  (** One epoch *)
  Inductive sync_step_spec (os : nat -> iter_order) (re rt : res cn_err rpc_response) (n : node)
    : res cn_err unit -> node -> list durable -> Prop :=
  | sy_idle : (forall a b c d, nd_busy n <> Syncing a b c d) -> sync_step_spec os re rt n (Err CNotRunning) n []
  | sy_end id rich ch sr : nd_busy n = Syncing id rich ch sr -> (rich < id)%N ->
      sync_step_spec os re rt n (Ok tt)
        (add_out (set_busy n Idle)
           (RichStatus (wrap64 (rich + 1)) (cs_interval (nd_status n)) (authority_list (cs_validators (nd_status n))))) []
  | sy_refused id rich ch sr r : nd_busy n = Syncing id rich ch sr -> is_ok r = false ->
      (forall e, re = Ok (RpEpoch e) -> id <> 1 /\ ch <> eh_pre_hash (ep_header e)) ->
      sync_step_spec os re rt n r (set_busy n Idle) []
  | sy_failed id rich ch sr r e : nd_busy n = Syncing id rich ch sr -> is_ok r = false ->
      re = Ok (RpEpoch e) -> (id = 1 \/ ch = eh_pre_hash (ep_header e)) ->
      sync_step_spec os re rt n r
        (set_busy (set_disk n (with_proof (nd_disk n) (eh_proof (ep_header e)))) Idle)
        [with_proof (nd_disk n) (eh_proof (ep_header e))]
  | sy_done id rich ch sr e txs resp tr' : nd_busy n = Syncing id rich ch sr -> (id <= rich)%N ->
      re = Ok (RpEpoch e) -> rt = Ok (RpTxs txs) -> (id = 1 \/ ch = eh_pre_hash (ep_header e)) ->
      executed os (nd_disk n).2 sr (eh_epoch_id (ep_header e)) (cs_price (nd_status n))
        (AUser (eh_proposer (ep_header e))) txs resp tr' ->
      let d1 := ((with_proof (nd_disk n) (eh_proof (ep_header e))).1, tr') in
      sync_step_spec os re rt n (Ok tt)
        (MkNode (new_status digest shapes (nd_status n) (eh_epoch_id (ep_header e)) e (eh_proof (ep_header e)) resp)
           (nd_exempt n) (nd_pool n) (apply_writes d1.1 (applied_writes e resp txs), tr')
           (Syncing (id + 1) rich (epoch_hash digest e) (er_state_root resp)) (nd_out n))
        (with_proof (nd_disk n) (eh_proof (ep_header e)) :: d1 :: persist_all d1 (applied_writes e resp txs)).

  Lemma sync_step_out os re rt n r n' t :
    sync_step digest root_of show shapes cf os re rt n = (r, n', t) -> sync_step_spec os re rt n r n' t.
  Proof.
    unfold sync_step. unfold abind at 1. unfold aget at 1.
    destruct (nd_busy n) as [|id p pf txs|id rich ch sr] eqn:Eb; [intros [= <- <- <-]; constructor; rewrite Eb; discriminate..|].
    destruct (N.leb_spec id rich) as [Hle|Hlt].
    2:{ intros [= <- <- <-]. apply (sy_end os re rt n id rich ch sr Eb Hlt). }
    unfold atry, sync_body. unfold abind at 1, alift at 1. unfold pull_reply_epoch.
    destruct re as [[e|l]|x|] eqn:Ere;
      try (intros [= <- <- <-]; apply (sy_refused os _ rt n id rich ch sr _ Eb); [reflexivity|intros e' X; discriminate X]).
    cbn zeta. unfold abind at 1.
    destruct (decide _) as [[Hn Hc]|Hl]; [unfold alift at 1|unfold aret at 1].
    { intros [= <- <- <-]. apply (sy_refused os _ rt n id rich ch sr _ Eb); [reflexivity|].
      intros e' [= <-]. auto. }
    assert (id = 1 \/ ch = eh_pre_hash (ep_header e)) as Hl'.
    { destruct (N.eq_dec id 1); [auto|]. destruct (decide (ch = eh_pre_hash (ep_header e))); [auto|]. tauto. }
    clear Hl. unfold abind at 1. unfold save_proof. rewrite awrites_spec.
    fold (with_proof (nd_disk n) (eh_proof (ep_header e))).
    change (persist_all (nd_disk n) (update_latest_proof rocks_col digest (eh_proof (ep_header e))))
      with [with_proof (nd_disk n) (eh_proof (ep_header e))].
    unfold abind at 1, alift at 1. unfold pull_reply_txs.
    destruct rt as [[e'|txs]|x|] eqn:Ert;
      try (intros [= <- <- <-]; (eapply sy_failed; [exact Eb|reflexivity|reflexivity|exact Hl'])).
    unfold abind at 1, aget at 1. unfold abind at 1.
    destruct (execute _ _ _ _ _ _ _ _ _ _ _) as [[r1 n1] t1] eqn:E.
    apply execute_out in E as [(Hr & -> & ->)|(resp & tr' & -> & Hx & -> & ->)].
    - destruct r1; [discriminate Hr|..]; intros [= <- <- <-]; (eapply sy_failed; [exact Eb|reflexivity|reflexivity|exact Hl']).
    - unfold abind at 1. rewrite update_status_out. unfold aupd.
      cbn [nd_disk set_disk fst snd app] in *. rewrite ?app_nil_r. intros [= <- <- <-].
      exact (sy_done os _ _ n id rich ch sr e txs resp tr' Eb Hle eq_refl eq_refl Hl' Hx).
  Qed.
End Calls.
