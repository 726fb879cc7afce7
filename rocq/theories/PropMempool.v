(** * Transaction pool properties C30-C41, C43, C45-C47.

    Vocabulary.  [pool_after digest verify n gap gap' ops] is the pool of size
    [n] after any sequence [ops] of API calls (insert, package, flush,
    ensure_order_txs, sync_propose_txs, get_full_txs) with arbitrary storage
    and peer answers; [gap] and [gap'] are the timeout gaps of the admission
    check and of packaging.  Of a pool [p] a caller sees [mp_contains],
    [mp_pooled] (the transaction under a hash), [mp_len]; [mp_slots] is the
    number of queue slots in use.  [mp_lookup p h] is the transaction
    [get_full_txs] finds for [h] (pool first, then pulled ones).
    MempoolSpec.v has the list-of-entries specification. *)
From Verif Require Import Base BaseFacts Hex Types Rlp FixedCodec TxMap TxMapFacts TxMapRun
  Mempool MempoolSpec MempoolFacts MempoolProps MempoolMore.
Local Open Scope N_scope.

(** ** C30: insertion *)
Theorem C30_insert_outcome : forall digest verify n gap gap' ops net t e b,
  let p := pool_after digest verify n gap gap' ops in
  let h := st_tx_hash t in
  let '(r, p') := mp_insert digest verify gap p net t e b in
  let admitted := (mp_len p < n)%nat /\ mp_contains p h = false /\ tx_ok digest verify gap e t /\
                  (mp_slots p < 4 * n)%nat in
  (admitted -> r = (if net then Ok tt else b) /\ mp_pooled p' h = Some t /\ mp_len p' = S (mp_len p) /\
     forall k, k <> h -> mp_pooled p' k = mp_pooled p k) /\
  (~ admitted -> (forall x, r <> Ok x) /\ mp_len p' = mp_len p /\ forall k, mp_pooled p' k = mp_pooled p k).
Proof.
  intros digest verify n gap gap' ops net t e b p h. pose proof (pool_inv digest verify n gap gap' ops) as Hp. fold p in Hp.
  pose proof (insert_outcome digest verify n gap gap' p net t e b Hp) as H.
  destruct (mp_insert digest verify gap p net t e b) as [r p']. destruct H as (Hp' & _ & H).
  unfold admissible in H. split; intros Ha.
  - destruct H as [(_ & Hr & E & _)|(N & _)]; [|contradiction]. split; [exact Hr|]. split.
    { apply (pooled_entry n gap' p' Hp'). exists false. rewrite E. split; [apply elem_of_app; right; left|reflexivity]. }
    split; [rewrite (len_entries n gap' p' Hp'), (len_entries n gap' p Hp), E, app_length; cbn; lia|].
    intros k Hk. apply option_eq. intros x. rewrite (pooled_entry n gap' p' Hp'), (pooled_entry n gap' p Hp), E.
    split; intros (bb & Hin & Hh); exists bb; (split; [|exact Hh]).
    + apply elem_of_app in Hin as [Hin|Hin]; [exact Hin|]. apply elem_of_list_singleton in Hin. injection Hin as -> ->.
      exfalso. apply Hk. symmetry. exact Hh.
    + apply elem_of_app. auto.
  - destruct H as [(X & _)|(_ & Hr & E & _)]; [contradiction|]. split; [exact Hr|].
    destruct (pooled_ext n gap' p' p Hp' Hp E) as (E1 & _ & E3). auto.
Qed.
Print Assumptions C30_insert_outcome.

(** Without flush there is always a slot: the English property holds. *)
Theorem C30_insert_without_flush : forall digest verify n gap gap' ops net t e,
  Forall (fun o => match o with OpFlush _ => False | _ => True end) ops ->
  let p := pool_after digest verify n gap gap' ops in
  (mp_insert digest verify gap p net t e (Ok tt)).1 = Ok tt <->
    (mp_len p < n)%nat /\ mp_contains p (st_tx_hash t) = false /\ tx_ok digest verify gap e t.
Proof.
  intros digest verify n gap gap' ops net t e Hops p.
  pose proof (pool_inv digest verify n gap gap' ops) as Hp. fold p in Hp.
  assert (Hs : mp_slots p = mp_len p).
  { apply (run_ind digest verify n gap gap' (fun p => mp_slots p = mp_len p) (fun o => match o with OpFlush _ => False | _ => True end));
      [intros; apply (step_slots digest verify n gap gap'); assumption|apply inv_new|reflexivity|exact Hops]. }
  pose proof (insert_outcome digest verify n gap gap' p net t e (Ok tt) Hp) as H.
  destruct (mp_insert digest verify gap p net t e (Ok tt)) as [r p']. destruct H as (_ & _ & H).
  unfold admissible in H. rewrite Hs in H. cbn [fst]. destruct H as [(Ha & -> & _)|(Ha & Hr & _)].
  - split; [tauto|]. destruct net; reflexivity.
  - split; [intros E; exfalso; eapply Hr; exact E|]. intros (A1 & A2 & A3). exfalso. apply Ha.
    repeat split; try assumption. lia.
Qed.
Print Assumptions C30_insert_without_flush.

(** ** C31: size *)
Theorem C31_never_above_pool_size : forall digest verify n gap gap' ops,
  Forall (fun o => match o with OpSync _ _ => False | _ => True end) ops ->
  (mp_len (pool_after digest verify n gap gap' ops) <= n)%nat.
Proof.
  intros digest verify n gap gap' ops H.
  apply (run_ind digest verify n gap gap' (fun p => mp_len p <= n)%nat (fun o => match o with OpSync _ _ => False | _ => True end));
    [intros; apply (step_len digest verify n gap gap'); assumption|apply inv_new|apply Nat.le_0_l|exact H].
Qed.
Print Assumptions C31_never_above_pool_size.

Theorem C31_never_above_four_times : forall digest verify n gap gap' ops,
  (mp_len (pool_after digest verify n gap gap' ops) <= 4 * n)%nat.
Proof.
  intros digest verify n gap gap' ops. pose proof (pool_inv digest verify n gap gap' ops) as Hp.
  etransitivity; [apply (slots_len n gap' _ Hp)|apply (slots_cap n gap' _ Hp)].
Qed.
Print Assumptions C31_never_above_four_times.

(** ** C32: the pool is a first-in first-out list *)
Theorem C32_pool_is_fifo_list : forall digest verify n gap gap' ops, Forall small_op ops ->
  (mp_run digest verify gap (mp_new n gap') ops).1 = (sp_run digest verify n gap gap' sp_new ops).1.
Proof.
  intros digest verify n gap gap' ops H.
  exact (proj1 (refine_from digest verify n gap gap' _ _ ops (sim_new n gap') H (Forall_nil_2 _))).
Qed.
Print Assumptions C32_pool_is_fifo_list.

(** [fit], used by the specification for the order list, is the longest prefix
    within the budget. *)
Theorem C32_fit_is_longest_prefix : forall budget l, exists k, fit budget l = take k l /\
  sum_cycles (take k l) <= budget /\ (k = length l \/ budget < sum_cycles (take (S k) l)).
Proof. exact fit_longest. Qed.
Print Assumptions C32_fit_is_longest_prefix.

(** ** C33: cycles limit *)
Definition pooled_list (p : mempool) (l : list signed_tx) : Prop :=
  Forall (fun t => mp_pooled p (st_tx_hash t) = Some t) l.
Definition total_cycles (l : list signed_tx) : N :=
  fold_right (fun t n => u64v (fee_cycle (rt_fee (st_raw t))) + n) 0 l.

Lemma sum_total l : sum_cycles l = total_cycles (map fst l).
Proof. induction l as [|e l IH]; [reflexivity|]. cbn. rewrite IH. reflexivity. Qed.

Theorem C33_order_list_within_limit : forall digest verify n gap gap' ops (limit : u64) e o q p',
  Forall small_op ops -> small limit ->
  let p := pool_after digest verify n gap gap' ops in
  mp_package p limit e = (Ok (o, q), p') ->
  exists l, map st_tx_hash l = o /\ pooled_list p l /\ total_cycles l <= limit.
Proof.
  intros digest verify n gap gap' ops limit e o q p' Hops Hl p E.
  pose proof (pool_inv digest verify n gap gap' ops) as Hp. fold p in Hp.
  destruct (refine_from digest verify n gap gap' _ _ ops (sim_new n gap') Hops (Forall_nil_2 _)) as [_ Hsim].
  fold p in Hsim. unfold p in *. clear p.
  assert (Hsm : Forall (fun x => small_tx x.1) (entries (pool_after digest verify n gap gap' ops))).
  { destruct Hsim as (_ & Ee & _). unfold pool_after. rewrite <- Ee. clear -Hops. assert (X : Forall (fun x : entry => small_tx x.1) (sp_txs sp_new)) by constructor.
    revert X. generalize sp_new. induction Hops as [|x ops Hx Hops IH]; intros s Hs; [exact Hs|]. cbn [sp_run].
    pose proof (sp_small_step digest verify n gap gap' s x Hx Hs) as Y. destruct (sp_step _ _ _ _ _ s x) as [r s1].
    cbn in Y. specialize (IH s1 Y). destruct (sp_run _ _ _ _ _ s1 ops). exact IH. }
  set (p := pool_after digest verify n gap gap' ops) in *.
  destruct (en_latest e) as [[ch epoch]|x|] eqn:He;
    [|unfold mp_package in E; rewrite He in E; discriminate E|unfold mp_package in E; rewrite He in E; discriminate E].
  pose proof (package_exact n gap' p Hp limit e ch epoch He Hl Hsm) as X. rewrite E in X. injection X as -> _.
  set (l := filter _ (entries p)). exists (map fst (fit limit l)). split; [rewrite map_map; reflexivity|].
  destruct (fit_longest limit l) as (k & Ek & Es & _). rewrite Ek in *. split.
  - apply Forall_forall. intros t Ht. apply elem_of_list_fmap in Ht as ([t' b] & -> & Ht).
    apply elem_of_take in Ht as (i & Ht & _). apply elem_of_list_lookup_2 in Ht.
    apply elem_of_list_filter in Ht as [_ Ht]. apply (pooled_entry n gap' p Hp). eauto.
  - rewrite <- sum_total. exact Es.
Qed.
Print Assumptions C33_order_list_within_limit.

(** ** C34: no duplicates *)
Theorem C34_packaged_lists_disjoint_nodup : forall digest verify n gap gap' ops (limit : u64) e o q p',
  mp_package (pool_after digest verify n gap gap' ops) limit e = (Ok (o, q), p') -> NoDup (o ++ q).
Proof.
  intros digest verify n gap gap' ops limit e o q p' E.
  pose proof (pool_inv digest verify n gap gap' ops) as Hp. destruct (en_latest e) as [[ch epoch]|x|] eqn:He;
    [|unfold mp_package in E; rewrite He in E; discriminate E|unfold mp_package in E; rewrite He in E; discriminate E].
  exact (proj1 (package_facts n gap' _ Hp limit e ch epoch He o q p' E)).
Qed.
Print Assumptions C34_packaged_lists_disjoint_nodup.

(** ** C35: what may be packaged *)
Theorem C35_packaged_are_pooled_and_unexpired : forall digest verify n (gap gap' : u64) ops (limit : u64) e ch (epoch : u64) o q p',
  en_latest e = Ok (ch, epoch) ->
  let p := pool_after digest verify n gap gap' ops in
  mp_package p limit e = (Ok (o, q), p') ->
  (forall h, h ∈ o ++ q -> exists t, mp_pooled p h = Some t /\ epoch < rt_timeout (st_raw t) /\
                                     rt_timeout (st_raw t) <= (epoch + gap') mod two64) /\
  (forall h t, mp_pooled p h = Some t -> u64v (rt_timeout (st_raw t)) <= epoch -> mp_contains p' h = false).
Proof.
  intros digest verify n gap gap' ops limit e ch epoch o q p' He p E.
  pose proof (pool_inv digest verify n gap gap' ops) as Hp. fold p in Hp.
  destruct (package_facts n gap' p Hp limit e ch epoch He o q p' E) as (_ & X & Y & _). split.
  - intros h Hh. destruct (X h Hh) as (t & X1 & [X2 X3] & _). exists t. auto.
  - intros h t Ht Hx. destruct (mp_contains p' h) eqn:Ec; [|reflexivity]. apply contains_pooled in Ec as [t' Ec].
    apply Y in Ec as [Ec1 [Ec2 _]]. rewrite Ht in Ec1. injection Ec1 as <-. lia.
Qed.
Print Assumptions C35_packaged_are_pooled_and_unexpired.

(** A flushed transaction is not packaged again unless it is submitted or
    pulled again. *)
Theorem C35_flushed_stays_out : forall digest verify n gap gap' ops1 hs ops2 h,
  h ∈ hs ->
  Forall (fun o => match o with OpInsert _ t _ _ => st_tx_hash t <> h
                              | OpSync _ pull => forall k txs, pull k = Ok txs -> h ∉ map st_tx_hash txs
                              | _ => True end) ops2 ->
  forall o q, RsPackage (Ok (o, q)) ∈ (mp_run digest verify gap (pool_after digest verify n gap gap' (ops1 ++ [OpFlush hs])) ops2).1 ->
  h ∉ o ++ q.
Proof.
  intros digest verify n gap gap' ops1 hs ops2 h Hh Hops o q.
  set (p := pool_after digest verify n gap gap' (ops1 ++ [OpFlush hs])).
  assert (Hp : mp_inv n gap' p) by apply pool_inv.
  assert (Hc : mp_pooled p h = None).
  { unfold p, pool_after. rewrite run_app. pose proof (pool_inv digest verify n gap gap' ops1) as Hp1. unfold pool_after in Hp1.
    destruct (mp_run digest verify gap (mp_new n gap') ops1) as [r1 p1]. cbn [mp_run mp_step snd] in *.
    rewrite (proj1 (proj2 (proj2 (flush_facts n gap' p1 hs Hp1)))). rewrite decide_True by exact Hh. reflexivity. }
  clearbody p. revert p Hp Hc. induction Hops as [|x ops Hx Hops IH]; intros p Hp Hc; [intros X; inversion X|].
  cbn [mp_run]. pose proof (inv_step digest verify n gap gap' p x Hp) as Hp1.
  destruct (mp_step digest verify gap p x) as [r p1] eqn:Es. cbn [snd] in Hp1.
  assert (Hc1 : mp_pooled p1 h = None).
  { destruct (mp_pooled p1 h) as [t|] eqn:E1; [exfalso|reflexivity]. destruct x as [net x e b|limit e|hs'|hs' pull|hs' pull|hs'].
    - cbn [mp_step] in Es. pose proof (insert_outcome digest verify n gap gap' p net x e b Hp) as H.
      destruct (mp_insert digest verify gap p net x e b) as [r' p'] . injection Es as _ ->. destruct H as (_ & _ & H).
      apply (pooled_entry n gap' p1 Hp1) in E1 as (bb & Hin & Ht).
      assert (Z : (t, bb) ∈ entries p -> False).
      { intros Z. assert (mp_pooled p h = Some t) by (apply (pooled_entry n gap' p Hp); eauto). congruence. }
      destruct H as [(_ & _ & E & _)|(_ & _ & E & _)]; rewrite E in Hin; [|auto].
      apply elem_of_app in Hin as [Hin|Hin]; [auto|]. apply elem_of_list_singleton in Hin. injection Hin as -> ->. auto.
    - cbn [mp_step] in Es. destruct (en_latest e) as [[ch epoch]|y|] eqn:He.
      + destruct (mp_package p limit e) as [r' p'] eqn:E. injection Es as _ ->.
        destruct (package_lists n gap' p Hp limit e ch epoch He) as (o1 & q1 & p'' & E' & _). rewrite E in E'. injection E' as -> ->.
        apply (package_facts n gap' p Hp limit e ch epoch He o1 q1 p'' E) in E1 as [E1 _]. congruence.
      + unfold mp_package in Es. rewrite He in Es. injection Es as _ ->. congruence.
      + unfold mp_package in Es. rewrite He in Es. injection Es as _ ->. congruence.
    - cbn [mp_step] in Es. injection Es as _ <-. rewrite (proj1 (proj2 (proj2 (flush_facts n gap' p hs' Hp)))) in E1.
      destruct (decide (h ∈ hs')); congruence.
    - cbn [mp_step] in Es. unfold mp_ensure_order_txs in Es.
      destruct (tc_show_unknown _ _) as [|u us]; [injection Es as _ ->; congruence|].
      destruct (pull (u :: us)) as [txs|y|]; [|injection Es as _ ->; congruence|injection Es as _ ->; congruence].
      destruct (decide _); injection Es as _ <-; unfold mp_pooled in *; cbn [mp_tc] in E1; congruence.
    - cbn [mp_step] in Es. unfold mp_sync_propose_txs in Es.
      destruct (tc_show_unknown _ _) as [|u us]; [injection Es as _ ->; congruence|].
      destruct (pull (u :: us)) as [txs|y|] eqn:Epl; [|injection Es as _ ->; congruence|injection Es as _ ->; congruence].
      injection Es as _ <-. unfold mp_pooled in E1. cbn [mp_tc mp_set_tc] in E1.
      apply sync_entries in E1 as [E1|[E1 E2]]; [unfold mp_pooled in Hc; congruence| |apply Hp].
      apply (Hx _ _ Epl). apply elem_of_list_fmap. eauto.
    - cbn [mp_step] in Es. injection Es as _ ->. congruence. }
  specialize (IH p1 Hp1 Hc1). destruct (mp_run digest verify gap p1 ops) as [rs p2]. cbn [fst] in *.
  intros Hin. apply elem_of_cons in Hin as [Hin|Hin]; [|auto]. subst r.
  destruct x as [net x e b|limit e|hs'|hs' pull|hs' pull|hs']; cbn [mp_step] in Es;
    [destruct (mp_insert _ _ _ _ _ _ _ _); discriminate Es| |discriminate Es
    |destruct (mp_ensure_order_txs _ _ _); discriminate Es|destruct (mp_sync_propose_txs _ _ _); discriminate Es|discriminate Es].
  destruct (mp_package p limit e) as [r' p'] eqn:E. injection Es as -> ->.
  destruct (en_latest e) as [[ch epoch]|y|] eqn:He;
    [|unfold mp_package in E; rewrite He in E; discriminate E|unfold mp_package in E; rewrite He in E; discriminate E].
  intros Hin. destruct (package_facts n gap' p Hp limit e ch epoch He o q p1 E) as (_ & X & _).
  destruct (X h Hin) as (t & X1 & _). congruence.
Qed.
Print Assumptions C35_flushed_stays_out.

(** ** C36: packaging loses nothing *)
Theorem C36_package_keeps_live : forall digest verify n (gap gap' : u64) ops (limit : u64) e ch (epoch : u64) o q p',
  en_latest e = Ok (ch, epoch) ->
  let p := pool_after digest verify n gap gap' ops in
  mp_package p limit e = (Ok (o, q), p') ->
  (forall h t, mp_pooled p h = Some t -> epoch < rt_timeout (st_raw t) -> rt_timeout (st_raw t) <= (epoch + gap') mod two64 ->
     mp_pooled p' h = Some t) /\
  (forall h t, mp_pooled p' h = Some t -> mp_pooled p h = Some t) /\
  (forall limit2, (mp_package p' limit2 e).1 = (mp_package p limit2 e).1).
Proof.
  intros digest verify n gap gap' ops limit e ch epoch o q p' He p E.
  pose proof (pool_inv digest verify n gap gap' ops) as Hp. fold p in Hp.
  destruct (package_facts n gap' p Hp limit e ch epoch He o q p' E) as (_ & _ & Y & _). split; [|split].
  - intros h t H1 H2 H3. apply Y. split; [exact H1|split; assumption].
  - intros h t H. apply Y in H. tauto.
  - intros limit2. pose proof (package_idem n gap' p Hp limit e ch epoch He limit2) as X. rewrite E in X. exact X.
Qed.
Print Assumptions C36_package_keeps_live.

(** Packaging never fails once the latest epoch is known. *)
Theorem C36_package_never_fails : forall digest verify n gap gap' ops limit e ch epoch,
  en_latest e = Ok (ch, epoch) ->
  exists o q, (mp_package (pool_after digest verify n gap gap' ops) limit e).1 = Ok (o, q).
Proof.
  intros digest verify n gap gap' ops limit e ch epoch He. pose proof (pool_inv digest verify n gap gap' ops) as Hp.
  destruct (package_lists n gap' _ Hp limit e ch epoch He) as (o & q & p' & E & _). exists o, q. rewrite E. reflexivity.
Qed.
Print Assumptions C36_package_never_fails.

(** ** C37: flush *)
Theorem C37_flush_exact : forall digest verify n gap gap' ops hs h,
  let p := pool_after digest verify n gap gap' ops in
  mp_pooled (mp_flush p hs) h = (if decide (h ∈ hs) then None else mp_pooled p h) /\
  mp_lookup (mp_flush p hs) h = (if decide (h ∈ hs) then None else mp_pooled p h).
Proof.
  intros digest verify n gap gap' ops hs h p. pose proof (pool_inv digest verify n gap gap' ops) as Hp. fold p in Hp.
  destruct (flush_facts n gap' p hs Hp) as (_ & _ & A & B & _). auto.
Qed.
Print Assumptions C37_flush_exact.

(** ** C38: get_full_txs *)
Theorem C38_get_full_txs_exact : forall digest verify n gap gap' ops hs,
  let p := pool_after digest verify n gap gap' ops in
  (forall txs, mp_get_full_txs p hs = Ok txs <-> Forall2 (fun h t => mp_lookup p h = Some t) hs txs) /\
  (forall txs, mp_get_full_txs p hs = Ok txs -> map st_tx_hash txs = hs) /\
  ((exists txs, mp_get_full_txs p hs = Ok txs) \/
   (exists h, h ∈ hs /\ mp_lookup p h = None) /\
   exists found, mp_get_full_txs p hs = Err (MMisMatch (length hs) found) /\ (found < length hs)%nat).
Proof.
  intros digest verify n gap gap' ops hs p. pose proof (pool_inv digest verify n gap gap' ops) as Hp. fold p in Hp.
  assert (Hh : forall h t, mp_lookup p h = Some t -> st_tx_hash t = h).
  { intros h t Ht. apply lookup_stored in Ht. revert Ht.
    apply (run_ind digest verify n gap gap' (fun p => stored p h t -> st_tx_hash t = h) (fun _ => True)).
    - intros p0 o Hp0 IH _ Hst. apply (step_source digest verify n gap gap' p0 o h t Hp0) in Hst as [Hst|[Hst _]]; auto.
    - apply inv_new.
    - intros [X|X].
      + apply (pooled_entry n gap' _ (inv_new n gap')) in X as (b & _ & X). exact X.
      + cbn in X. rewrite lookup_empty in X. discriminate.
    - apply Forall_forall. auto. }
  split; [apply get_full_iff|]. split.
  - intros txs E. apply get_full_iff in E. induction E as [|h t l k H1 H2 IH]; [reflexivity|]. cbn. rewrite IH, (Hh h t H1). reflexivity.
  - unfold mp_get_full_txs. destruct (decide _) as [D|D]; [left; eauto|right]. split.
    + destruct (decide (Forall (fun h => is_Some (mp_lookup p h)) hs)) as [F|F].
      * exfalso. apply D. clear -F. induction F as [|h hs [t Ht] F IH]; [reflexivity|]. cbn. rewrite Ht. cbn. congruence.
      * apply not_Forall_Exists in F; [|apply _]. apply Exists_exists in F as (h & Hin & F). exists h. split; [exact Hin|].
        apply eq_None_not_Some. exact F.
    + eexists. split; [reflexivity|]. assert (length (omap (mp_lookup p) hs) <= length hs)%nat; [|lia].
      clear. induction hs as [|h hs IH]; cbn; [lia|]. destruct (mp_lookup p h); cbn; lia.
Qed.
Print Assumptions C38_get_full_txs_exact.

(** ** C39: completeness after ensure_order_txs *)
(** If the peer answers a request for [k] hashes either with an error, with a
    list of another length, or with a list containing all of them. *)
Theorem C39_ensured_txs_stay_available : forall digest verify n gap gap' ops hs pull p1 ops2,
  (forall k txs, pull k = Ok txs -> length txs = length k -> forall h, h ∈ k -> exists t, t ∈ txs /\ st_tx_hash t = h) ->
  mp_ensure_order_txs (pool_after digest verify n gap gap' ops) hs pull = (Ok tt, p1) ->
  Forall (fun o => match o with OpFlush _ | OpPackage _ _ => False | _ => True end) ops2 ->
  exists txs, mp_get_full_txs (mp_run digest verify gap p1 ops2).2 hs = Ok txs /\ map st_tx_hash txs = hs.
Proof.
  intros digest verify n gap gap' ops hs pull p1 ops2 Hpull E Hops.
  pose proof (pool_inv digest verify n gap gap' ops) as Hp.
  assert (Hp1 : mp_inv n gap' p1).
  { pose proof (inv_step digest verify n gap gap' _ (OpEnsure hs pull) Hp) as X. cbn [mp_step] in X. rewrite E in X. exact X. }
  assert (Hst : forall h, h ∈ hs -> exists t, stored (mp_run digest verify gap p1 ops2).2 h t).
  { intros h Hh. apply (run_ind digest verify n gap gap' (fun p => exists t, stored p h t)
      (fun o => match o with OpFlush _ | OpPackage _ _ => False | _ => True end)); [|exact Hp1| |exact Hops].
    - intros p o Hi [t Ht] Ho. exact (step_keeps digest verify n gap gap' p o h t Hi Ht Ho).
    - exact (ensure_stored n gap' _ hs pull p1 Hp Hpull E h Hh). }
  assert (Hl : forall h, h ∈ hs -> exists t, mp_lookup (mp_run digest verify gap p1 ops2).2 h = Some t).
  { intros h Hh. destruct (Hst h Hh) as [t Ht]. eapply stored_lookup. exact Ht. }
  apply get_full_total in Hl as [txs Hl]. exists txs. split; [exact Hl|].
  assert (Hr : (mp_run digest verify gap p1 ops2).2 = pool_after digest verify n gap gap' (ops ++ OpEnsure hs pull :: ops2)).
  { unfold pool_after. rewrite run_app. unfold pool_after in E. destruct (mp_run digest verify gap (mp_new n gap') ops) as [r0 p0].
    cbn [mp_run mp_step snd] in *. rewrite E. destruct (mp_run digest verify gap p1 ops2) as [r2 p2]. reflexivity. }
  rewrite Hr in Hl. exact (proj1 (proj2 (C38_get_full_txs_exact digest verify n gap gap' _ hs)) txs Hl).
Qed.
Print Assumptions C39_ensured_txs_stay_available.

(** ** C40: authenticity *)
(** As long as peers answer pulls with authentic transactions only, everything
    [get_full_txs] returns is authentic. *)
Theorem C40_authentic_if_peers_are : forall digest verify n gap gap' ops hs txs,
  let authentic t := verify (sbytes (st_tx_hash t)) (st_signature t) (st_pubkey t) = true /\
                     digest (enc_raw (st_raw t)) = st_tx_hash t in
  Forall (fun o => match o with OpEnsure _ pull | OpSync _ pull => forall k txs, pull k = Ok txs -> Forall authentic txs
                              | _ => True end) ops ->
  mp_get_full_txs (pool_after digest verify n gap gap' ops) hs = Ok txs -> Forall authentic txs.
Proof.
  intros digest verify n gap gap' ops hs txs authentic Hops E. apply get_full_iff in E.
  induction E as [|h t l k H1 H2 IH]; constructor; [|exact IH].
  apply lookup_stored in H1. exact (authentic_stored digest verify n gap gap' ops h t Hops H1).
Qed.
Print Assumptions C40_authentic_if_peers_are.

(** In every reachable pool, for every unknown hash, one answer of one peer
    makes the pool hand out any transaction carrying that hash, whatever its
    content and signature. *)
Theorem C40_pulled_forgery_refuted : forall digest verify n gap gap' ops h t,
  let p := pool_after digest verify n gap gap' ops in
  st_tx_hash t = h -> mp_lookup p h = None ->
  let '(r, p1) := mp_ensure_order_txs p [h] (fun _ => Ok [t]) in r = Ok tt /\ mp_get_full_txs p1 [h] = Ok [t].
Proof. intros digest verify n gap gap' ops h t p. exact (forged n gap' p h t (pool_inv digest verify n gap gap' ops)). Qed.
Print Assumptions C40_pulled_forgery_refuted.

(** ** C41: admission *)
Theorem C41_admission_check : forall digest verify (gap : u64) e t,
  (let? _ := check_signature verify t in
   let? _ := check_transaction digest gap e t in
   check_storage_exist e (st_tx_hash t)) = Ok tt <->
  verify (sbytes (st_tx_hash t)) (st_signature t) (st_pubkey t) = true /\
  digest (enc_raw (st_raw t)) = st_tx_hash t /\
  (exists epoch : u64, en_latest e = Ok (rt_chain_id (st_raw t), epoch) /\
     epoch <= rt_timeout (st_raw t) /\ rt_timeout (st_raw t) <= (epoch + gap) mod two64) /\
  en_stored e (st_tx_hash t) = Ok false.
Proof. exact tx_ok_iff. Qed.
Print Assumptions C41_admission_check.

(** Which error: the first failing check in the order signature, hash, chain,
    too far in the future, expired. *)
Theorem C41_first_failing_check : forall digest verify (gap : u64) e t (epoch : u64) chain,
  en_latest e = Ok (chain, epoch) ->
  let h := st_tx_hash t in let raw := st_raw t in
  let r := (let? _ := check_signature verify t in check_transaction digest gap e t) in
  let sig := verify (sbytes h) (st_signature t) (st_pubkey t) = true in
  let hashed := digest (enc_raw raw) = h in
  let near := rt_timeout raw <= (epoch + gap) mod two64 in
  (~ sig -> r = Err (MCheckSig h)) /\
  (sig -> ~ hashed -> r = Err (MCheckHash h (digest (enc_raw raw)))) /\
  (sig -> hashed -> chain <> rt_chain_id raw -> r = Err (MWrongChain h)) /\
  (sig -> hashed -> chain = rt_chain_id raw -> ~ near -> r = Err (MInvalidTimeout h)) /\
  (sig -> hashed -> chain = rt_chain_id raw -> near -> rt_timeout raw < epoch -> r = Err (MTimeout h (rt_timeout raw))) /\
  (sig -> hashed -> chain = rt_chain_id raw -> near -> epoch <= rt_timeout raw -> r = Ok tt).
Proof.
  intros digest verify gap e t epoch chain He h raw r sig hashed near.
  unfold r, check_signature, check_transaction. fold h raw. rewrite He. cbn [rbind].
  change ((epoch + gap) mod two64) with (u64v (wrap64 (epoch + gap))) in near.
  unfold sig. destruct (verify (sbytes h) (st_signature t) (st_pubkey t)); cbn [rbind].
  2:{ split; [reflexivity|]. repeat split; discriminate. }
  split; [congruence|]. destruct (decide _) as [D|D].
  2:{ split; [reflexivity|]. repeat split; intros; contradiction. }
  split; [intros; contradiction|]. destruct (decide _) as [D2|D2].
  2:{ split; [reflexivity|]. repeat split; intros; contradiction. }
  split; [intros; contradiction|]. unfold near. destruct (wrap64 (epoch + gap) <? rt_timeout raw) eqn:E1.
  { apply N.ltb_lt in E1. split; [reflexivity|]. split; intros; lia. }
  apply N.ltb_ge in E1. split; [intros; lia|]. destruct (rt_timeout raw <? epoch) eqn:E2.
  - apply N.ltb_lt in E2. split; [reflexivity|]. intros; lia.
  - apply N.ltb_ge in E2. split; [intros; lia|reflexivity].
Qed.
Print Assumptions C41_first_failing_check.

(** A transaction whose timeout is the latest epoch is admitted, but packaging
    at that epoch drops it unexecuted. *)
Theorem C41_admitted_yet_never_packaged_refuted : forall digest verify n (gap gap' : u64) ops net t e b p' chain (epoch limit : u64) o q p2,
  mp_insert digest verify gap (pool_after digest verify n gap gap' ops) net t e b = (Ok tt, p') ->
  en_latest e = Ok (chain, epoch) -> rt_timeout (st_raw t) = epoch ->
  mp_package p' limit e = (Ok (o, q), p2) ->
  st_tx_hash t ∉ o ++ q /\ mp_contains p2 (st_tx_hash t) = false.
Proof.
  intros digest verify n gap gap' ops net t e b p' chain epoch limit o q p2 E He Ht Ep.
  set (ops' := ops ++ [OpInsert net t e b]).
  assert (Ep' : p' = pool_after digest verify n gap gap' ops').
  { unfold ops', pool_after. rewrite run_app. unfold pool_after in E.
    destruct (mp_run digest verify gap (mp_new n gap') ops) as [r0 p0]. cbn [mp_run mp_step snd] in *. rewrite E. reflexivity. }
  pose proof (C30_insert_outcome digest verify n gap gap' ops net t e b) as X. cbn zeta in X. rewrite E in X. destruct X as [X1 X2].
  assert (Hpool : mp_pooled p' (st_tx_hash t) = Some t).
  { destruct (decide (mp_len (pool_after digest verify n gap gap' ops) < n)%nat) as [A|A].
    2:{ exfalso. apply (proj1 (X2 ltac:(intros (Z & _); exact (A Z))) tt). reflexivity. }
    destruct (mp_contains (pool_after digest verify n gap gap' ops) (st_tx_hash t)) eqn:B.
    1:{ exfalso. apply (proj1 (X2 ltac:(intros (_ & Z & _); congruence)) tt). reflexivity. }
    assert (Hok : tx_ok digest verify gap e t \/ ~ tx_ok digest verify gap e t).
    { unfold tx_ok. destruct (rbind _ _) as [[]|x|]; [left; reflexivity|right; discriminate|right; discriminate]. }
    destruct Hok as [C|C]; [|exfalso; apply (proj1 (X2 ltac:(intros (_ & _ & Z & _); exact (C Z))) tt); reflexivity].
    destruct (decide (mp_slots (pool_after digest verify n gap gap' ops) < 4 * n)%nat) as [D|D].
    - exact (proj1 (proj2 (X1 (conj A (conj eq_refl (conj C D)))))).
    - exfalso. apply (proj1 (X2 ltac:(intros (_ & _ & _ & Z); exact (D Z))) tt). reflexivity. }
  rewrite Ep' in Hpool, Ep.
  destruct (C35_packaged_are_pooled_and_unexpired digest verify n gap gap' ops' limit e chain epoch o q p2 He Ep) as [Y1 Y2].
  split.
  - intros Hin. destruct (Y1 _ Hin) as (t' & Z1 & Z2 & _). rewrite Hpool in Z1. injection Z1 as <-. rewrite Ht in Z2. lia.
  - apply (Y2 _ t Hpool). rewrite Ht. lia.
Qed.
Print Assumptions C41_admitted_yet_never_packaged_refuted.

(** ** C43: the sharded map *)
Theorem C43_sharded_map_is_one_map : forall V (l : list (map_op V)), Forall op_ok l ->
  tm_run tm_new l = one_run ∅ l.
Proof.
  intros V l H. rewrite (run_flat l H tm_new wf_new), flat_new. reflexivity.
Qed.
Print Assumptions C43_sharded_map_is_one_map.

(** ** C45: head-of-line blocking *)
(** Once a transaction dearer than the block limit is the oldest one in the
    pool, no transaction at all is ordered any more until it expires or is
    flushed, whatever is submitted. *)
Theorem C45_dear_head_blocks_everything_refuted : forall digest verify n (gap gap' : u64) t e0 b ops,
  (0 < n)%nat -> tx_ok digest verify gap e0 t ->
  Forall (fun o => match o with
    | OpFlush hs => st_tx_hash t ∉ hs
    | OpPackage limit e => limit < fee_cycle (rt_fee (st_raw t)) /\
        forall ch epoch, en_latest e = Ok (ch, epoch) ->
          epoch < rt_timeout (st_raw t) /\ rt_timeout (st_raw t) <= (epoch + gap') mod two64
    | _ => True end) ops ->
  forall o q, RsPackage (Ok (o, q)) ∈ (mp_run digest verify gap (mp_new n gap') (OpInsert false t e0 b :: ops)).1 -> o = [].
Proof.
  intros digest verify n gap gap' t e0 b ops Hn Ht Hops o q. cbn [mp_run].
  destruct (mp_step digest verify gap (mp_new n gap') (OpInsert false t e0 b)) as [r p] eqn:E.
  assert (Hp : mp_inv n gap' p /\ headed t p /\ exists x, r = RsUnit x).
  { cbn [mp_step] in E. pose proof (insert_outcome digest verify n gap gap' _ false t e0 b (inv_new n gap')) as H.
    destruct (mp_insert digest verify gap (mp_new n gap') false t e0 b) as [r' p']. injection E as <- <-.
    destruct H as (H1 & _ & H). split; [exact H1|]. split; [|eauto]. destruct H as [(_ & _ & H & _)|(H & _)].
    - exists false, []. rewrite H. reflexivity.
    - exfalso. apply H. split; [cbn; exact Hn|]. split; [reflexivity|]. split; [exact Ht|]. cbn. lia. }
  destruct Hp as (Hp & Hh & [x ->]). clear E.
  assert (Hall : forall p, mp_inv n gap' p -> headed t p ->
    forall o q, RsPackage (Ok (o, q)) ∈ (mp_run digest verify gap p ops).1 -> o = []).
  { clear -Hops. induction Hops as [|y ops Hy Hops IH]; intros p Hp Hh o q; [intros X; inversion X|]. cbn [mp_run].
    pose proof (inv_step digest verify n gap gap' p y Hp) as Hp1.
    assert (Hh1 : headed t (mp_step digest verify gap p y).2).
    { apply (head_stays digest verify n gap gap' t p y Hp Hh). destruct y; try exact I; try exact Hy.
      intros ch epoch He. destruct Hy as [_ Hy]. apply Hy in He. unfold alive. cbn. apply andb_true_iff.
      rewrite N.ltb_lt, N.leb_le. exact He. }
    destruct (mp_step digest verify gap p y) as [r p1] eqn:Es. cbn [snd] in *. specialize (IH p1 Hp1 Hh1 o q).
    destruct (mp_run digest verify gap p1 ops) as [rs p2]. cbn [fst] in *.
    intros Hin. apply elem_of_cons in Hin as [<-|Hin]; [|auto].
    destruct y as [net y e bb|limit e|hs'|hs' pull|hs' pull|hs']; cbn [mp_step] in Es;
      [destruct (mp_insert _ _ _ _ _ _ _ _); discriminate Es| |discriminate Es
      |destruct (mp_ensure_order_txs _ _ _); discriminate Es|destruct (mp_sync_propose_txs _ _ _); discriminate Es|discriminate Es].
    destruct (mp_package p limit e) as [r' p'] eqn:E. injection Es as -> ->. destruct Hy as [Hl Hy].
    destruct (en_latest e) as [[ch epoch]|z|] eqn:He;
      [|unfold mp_package in E; rewrite He in E; discriminate E|unfold mp_package in E; rewrite He in E; discriminate E].
    destruct (head_blocks n gap' t p limit e ch epoch Hp Hh He) as [q' Hq]; [|exact Hl|].
    - destruct (Hy _ _ eq_refl) as [A B]. unfold alive. cbn. apply andb_true_iff. rewrite N.ltb_lt, N.leb_le. auto.
    - rewrite E in Hq. cbn in Hq. injection Hq as -> _. reflexivity. }
  specialize (Hall p Hp Hh o q). destruct (mp_run digest verify gap p ops) as [rs p2]. cbn [fst] in *.
  intros Hin. apply elem_of_cons in Hin as [Hin|Hin]; [discriminate Hin|auto].
Qed.
Print Assumptions C45_dear_head_blocks_everything_refuted.

(** If every pooled transaction fits alone, the order list is not empty as
    long as a live transaction exists. *)
Theorem C45_progress_if_each_fits : forall digest verify n (gap gap' : u64) ops (limit : u64) e ch (epoch : u64) o q p',
  let p := pool_after digest verify n gap gap' ops in
  en_latest e = Ok (ch, epoch) ->
  (forall h t, mp_pooled p h = Some t -> fee_cycle (rt_fee (st_raw t)) <= limit) ->
  (exists h t, mp_pooled p h = Some t /\ epoch < rt_timeout (st_raw t) /\ rt_timeout (st_raw t) <= (epoch + gap') mod two64) ->
  mp_package p limit e = (Ok (o, q), p') -> o <> [].
Proof.
  intros digest verify n gap gap' ops limit e ch epoch o q p' p He Hfit (h & t & Ht & Hu1 & Hu2) E.
  pose proof (pool_inv digest verify n gap gap' ops) as Hp. fold p in Hp.
  pose proof (package_inv n gap' p limit e Hp) as (_ & _ & _ & P). rewrite He, E in P. destruct P as (P & P1 & P2 & _).
  cbn [fst snd] in *. injection P as P. rewrite P1 in P2. clear P1.
  set (l := filter _ (live (mp_tc p))) in *.
  assert (Hin : exists b, (t, b) ∈ map ent l).
  { apply (pooled_entry n gap' p Hp) in Ht as (b & Hin & _). exists b. rewrite <- P2. apply elem_of_list_filter.
    split; [|exact Hin]. apply (alive_unexpired gap' epoch). split; assumption. }
  clearbody l. destruct l as [|w l]; [destruct Hin as [b Hin]; inversion Hin|].
  assert (Hw : tx_cycle (w_tx w) <= limit).
  { apply (Hfit (w_hash w) (w_tx w)). apply (pooled_entry n gap' p Hp). exists (w_proposed w). split; [|reflexivity].
    assert (X : ent w ∈ map ent (w :: l)) by left. rewrite <- P2 in X. apply elem_of_list_filter in X. apply X. }
  cbn [pick] in P. change (wrap64 (wrap64 0 + tx_cycle (w_tx w))) with (wrap64 (0 + tx_cycle (w_tx w))) in P.
  assert (Hc : u64v (wrap64 (0 + tx_cycle (w_tx w))) = tx_cycle (w_tx w)).
  { rewrite N.add_0_l. apply N.mod_small, u64_lt. }
  replace (limit <? wrap64 (0 + tx_cycle (w_tx w))) with false in P by (symmetry; apply N.ltb_ge; rewrite Hc; exact Hw).
  destruct (pick limit OrderTxs (wrap64 (0 + tx_cycle (w_tx w))) l) as [[o1 q1] r]. cbn in P. injection P as -> _. discriminate.
Qed.
Print Assumptions C45_progress_if_each_fits.

(** ** C46: only the first element of the propose list can be a transaction
    that came from another node's proposal. *)
Theorem C46_tail_of_proposal_is_new : forall digest verify n gap gap' ops limit e o q p',
  let p := pool_after digest verify n gap gap' ops in
  mp_package p limit e = (Ok (o, q), p') -> forall h, h ∈ tail q -> mp_proposed p h = Some false.
Proof.
  intros digest verify n gap gap' ops limit e o q p' p. exact (propose_tail n gap' p limit e o q p' (pool_inv digest verify n gap gap' ops)).
Qed.
Print Assumptions C46_tail_of_proposal_is_new.

(** ** C47: exactly the newly pooled transactions that did not come from the
    network are handed to the broadcaster, in order. *)
Theorem C47_broadcast_exactly_own_new_txs : forall digest verify n gap gap' ops o,
  let p := pool_after digest verify n gap gap' ops in
  let p' := (mp_step digest verify gap p o).2 in
  mp_out p' = mp_out p ++
    match o with
    | OpInsert false t _ _ => if negb (mp_contains p (st_tx_hash t)) && mp_contains p' (st_tx_hash t) then [t] else []
    | _ => []
    end.
Proof.
  intros digest verify n gap gap' ops o p. exact (step_out digest verify n gap gap' p o (pool_inv digest verify n gap gap' ops)).
Qed.
Print Assumptions C47_broadcast_exactly_own_new_txs.
