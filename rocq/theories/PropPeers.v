(** * C74-C78, C83, C84: the peer manager *)
From Coq Require Import List Bool NArith Lia.
From stdpp Require Import base decidable list gmap sets fin_sets.
From Verif Require Import Base Types Keccak CodecProps PeerManager PmSpec PmFacts PmMore PmPeers PmProps PmProps2 PmProps3.
Import ListNotations.
Local Open Scope N_scope.

Section PropPeers.
  Context (digest : bytes -> hash) (peer_id : pubkey -> pid).
  Notation pubkey_user := (pubkey_user digest).
  Notation our_id := (our_id peer_id).
  Notation process_event := (process_event digest peer_id).
  Notation act := (act digest peer_id).
  Notation reach := (reach digest peer_id).
  Notation start := (start digest peer_id).
  Notation distinct_ids := (distinct_ids peer_id).
  Notation distinct_users := (distinct_users digest).

  (** ** C74 *)

  (** After every history: no peer is both connected and being dialled; a
      recorded session belongs to a connected, known peer and maps back to that
      peer; every connected peer other than ourself has a session. *)
  Theorem C74_tables_consistent : forall cfg c0 saved h s,
    distinct_ids (start_keys cfg saved) -> sessions_distinct h ->
    reach cfg (start cfg c0 saved) h s ->
    (forall p, p ∈ connecting s -> p ∉ connected s) /\
    (forall p n, peer_session s !! p = Some n ->
       session_peer s !! n = Some p /\ p ∈ connected s /\ is_Some (pool s !! p)) /\
    (forall p, p ∈ connected s -> p = our_id cfg \/ is_Some (peer_session s !! p)).
  Proof.
    intros cfg c0 saved h s Hd Hn Hr.
    pose proof (inv_reach _ _ _ _ _ _ (proj1 (inv_start digest peer_id cfg c0 saved Hd)) Hr) as Hi.
    split; [|split].
    - intros p H1 H2. exact (i_disj _ _ _ _ Hi p H1 H2).
    - intros p n Hp. split; [eapply sessions_back; eassumption|]. exact (i_ps _ _ _ _ Hi _ _ Hp).
    - exact (i_conn _ _ _ _ Hi).
  Qed.

  (** The recorded session of a peer is the latest one opened with it, and no
      session of it has been reported closed since. *)
  Theorem C74_recorded_is_latest : forall cfg c0 saved h s p n,
    reach cfg (start cfg c0 saved) h s -> peer_session s !! p = Some n ->
    exists pk, peer_id pk = p /\ latest_session peer_id h pk n.
  Proof. intros cfg c0 saved h s p n Hr. exact (session_latest digest peer_id cfg c0 saved h s Hr p n). Qed.

  (** A session opened with a peer stays recorded until another one is opened
      with it or an event reports it closed, broken or to be removed. *)
  Theorem C74_open_session_recorded : forall cfg c0 saved h s pk n,
    distinct_ids (start_keys cfg saved) -> reach cfg (start cfg c0 saved) h s ->
    holds_session peer_id h pk n -> peer_session s !! peer_id pk = Some n.
  Proof. intros. eapply holds_session_recorded; eassumption. Qed.

  (** False: the late close of an old session [m] of a peer that has since
      opened session [n] forgets [n], though it is still open. *)
  Theorem C74_late_close_refuted : forall cfg c0 saved h s p n m c ty,
    reach cfg (start cfg c0 saved) h s -> peer_session s !! p = Some n -> m <> n ->
    let s' := fst (process_event cfg c s (DetachPeerSession p m ty)) in
    peer_session s' !! p = None /\ p ∉ connected s'.
  Proof.
    intros cfg c0 saved h s p n m c ty _ _ _. cbn [PeerManager.process_event fst]. cbv zeta. split.
    - rewrite (proj1 (detach_sess peer_id cfg c p s)). unfold closed_ps. apply lookup_delete.
    - rewrite (proj1 (detach_conn peer_id cfg c p s)). apply not_elem_of_difference. right. apply elem_of_singleton. reflexivity.
  Qed.

  (** ** C75 *)

  (** A message routed to [users] goes, in order, to the sessions of those that
      have one and reports exactly the others as missed; the session of a user
      is the latest one opened by the holder of its key; and a user whose
      session is still open gets the message. *)
  Theorem C75_sent_or_missed : forall cfg c0 saved h s c users msg pri,
    distinct_ids (all_keys cfg saved h) -> distinct_users (all_keys cfg saved h) ->
    reach cfg (start cfg c0 saved) h s ->
    exists (f : user_address -> option sid) addrs missed,
      process_event cfg c s (RouteMultiUsersMessage users msg pri) =
        (s, ([SendMsg (omap f users) msg pri; Connect addrs], Some missed)) /\
      Permutation missed (filter (fun u => f u = None) users) /\
      (forall u n, f u = Some n -> exists pk, pubkey_user pk = u /\ latest_session peer_id h pk n) /\
      (forall pk n, holds_session peer_id h pk n -> f (pubkey_user pk) = Some n).
  Proof.
    intros cfg c0 saved h s c users msg pri Hid Hus Hr.
    destruct (users_reach _ _ _ _ _ _ _ Hid Hus Hr) as [Hi Hu].
    pose proof (pool_keys_reach _ _ _ _ _ _ _ Hr) as Hk.
    destruct (route_eq users msg pri s (i_user _ _ _ _ Hi)) as (addrs & missed & E & Hm & _).
    exists (session_for s), addrs, missed. cbn [PeerManager.process_event]. rewrite E.
    split; [reflexivity|]. split; [exact Hm|]. split.
    - intros u n Hf. apply (session_for_spec _ _ cfg s u n _ Hi Hu Hk) in Hf as (p & pe & Hp & Hpu & Hps).
      destruct (session_latest _ _ _ _ _ _ _ Hr _ _ Hps) as (pk & Hpk & Hl). exists pk. split; [|exact Hl].
      destruct (i_peer _ _ _ _ Hi _ _ Hp) as (_ & Hwu & Hwk).
      assert (pk = p_pubkey pe) as ->; [|rewrite <- Hwu; exact Hpu].
      apply Hid; [|exact (Hk _ _ Hp)|congruence].
      destruct Hl as (pre & c1 & a & post & -> & (ad & ty & ->) & _).
      unfold all_keys. apply in_or_app. right. unfold opened_keys. apply in_flat_map.
      exists (c1, AEvent (AttachPeerSession pk n ad ty)). split; [apply in_or_app; right; left; reflexivity|left; reflexivity].
    - intros pk n Hh. apply (session_for_spec _ _ cfg s _ n _ Hi Hu Hk).
      assert (distinct_ids (start_keys cfg saved)) as Hid'.
      { intros k1 k2 H1 H2. apply Hid; apply in_or_app; left; assumption. }
      pose proof (holds_session_recorded digest peer_id cfg c0 saved h s pk n Hid' Hr Hh) as Hps.
      destruct (i_ps _ _ _ _ Hi _ _ Hps) as (_ & pe & Hp). exists (peer_id pk), pe. split; [exact Hp|]. split; [|exact Hps].
      destruct (i_peer _ _ _ _ Hi _ _ Hp) as (_ & Hwu & Hwk). rewrite Hwu. f_equal.
      apply Hid; [exact (Hk _ _ Hp)| |exact Hwk].
      destruct Hh as (pre & c1 & a & post & -> & (ad & ty & ->) & _).
      unfold all_keys. apply in_or_app. right. unfold opened_keys. apply in_flat_map.
      exists (c1, AEvent (AttachPeerSession pk n ad ty)). split; [apply in_or_app; right; left; reflexivity|left; reflexivity].
  Qed.

  (** ** C76 *)

  (** False: a discovered address is forgotten at its first timeout, whatever
      the history. *)
  Theorem C76_address_forgotten_refuted : forall cfg c0 saved h s c a,
    reach cfg (start cfg c0 saved) h s ->
    unknowns (fst (process_event cfg c s (ReconnectLater a))) !! a = None.
  Proof. exact (reconnect_forgets digest peer_id). Qed.

  (** False: a known peer that is being dialled stays so, and is not dialled
      again, through any continuation in which only timeouts (of any address,
      so long as the count stays below the limit), failed addresses and
      events about other peers are reported, for however long it is. *)
  Theorem C76_dial_never_retried_refuted : forall cfg c0 saved h1 s1 h2 s2 p pe,
    reach cfg (start cfg c0 saved) h1 s1 -> p ∈ connecting s1 -> pool s1 !! p = Some pe ->
    reach cfg s1 h2 s2 ->
    (forall c a, In (c, a) h2 -> ~ drops peer_id (h1 ++ h2) p a) ->
    retry_count (p_state pe) + timeouts h2 <= 5 ->
    p ∈ connecting s2 /\ (exists pe', pool s2 !! p = Some pe') /\
    forall c a, In (c, a) h2 -> ~ dials_peer a p.
  Proof.
    intros cfg c0 saved h1 s1 h2 s2 p pe Hr1 Hc Hp Hr2 Hd Hk.
    destruct (stuck digest peer_id cfg c0 saved h1 s1 h2 s2 p pe Hr1 Hc Hp Hr2 Hd Hk) as ((H1 & pe' & H2 & _) & H3).
    split; [exact H1|]. split; [exists pe'; exact H2|exact H3].
  Qed.

  (** What does make a peer a candidate again: a reported loss of its session
      (or of its dial) frees it, and after its back-off it is a candidate. *)
  Theorem C76_candidate_iff : forall cfg c0 saved h s c p,
    distinct_ids (start_keys cfg saved) -> reach cfg (start cfg c0 saved) h s ->
    (In p (candidates c s) <->
     exists pe, pool s !! p = Some pe /\ p ∉ connected s /\ p ∉ connecting s /\ next_retry (p_state pe) < inst c).
  Proof.
    intros cfg c0 saved h s c p Hd Hr.
    pose proof (inv_reach _ _ _ _ _ _ (proj1 (inv_start digest peer_id cfg c0 saved Hd)) Hr) as Hi. split.
    - intros H. apply candidates_spec in H as (H1 & H2 & q & pe & Hq & Hid & Hn).
      destruct (i_peer _ _ _ _ Hi _ _ Hq) as (Hid' & _). rewrite Hid in Hid'. subst q. exists pe. auto.
    - intros (pe & Hp & H1 & H2 & H3). destruct (i_peer _ _ _ _ Hi _ _ Hp) as (Hid' & _).
      eapply candidates_intro; eassumption.
  Qed.

  Theorem C76_closed_is_freed : forall cfg c s p n ty,
    let s' := fst (process_event cfg c s (DetachPeerSession p n ty)) in
    p ∉ connected s' /\ p ∉ connecting s'.
  Proof.
    intros cfg c s p n ty. cbn [PeerManager.process_event fst]. cbv zeta.
    destruct (detach_conn peer_id cfg c p s) as [E1 E2]. rewrite E1, E2. set_solver.
  Qed.

  (** ** C77 *)

  (** No history makes the manager forget a configured bootstrap peer. *)
  Theorem C77_bootstraps_kept : forall cfg c0 saved h s pk addr,
    In (pk, addr) (bootstraps cfg) -> reach cfg (start cfg c0 saved) h s -> is_Some (pool s !! peer_id pk).
  Proof. intros cfg c0 saved h s pk addr Hin Hr. exact (boot_reach digest peer_id cfg c0 saved h s Hr (pk, addr) Hin). Qed.

  (** Nor its configured address, if no two bootstraps are the same peer. *)
  Theorem C77_bootstrap_addresses_kept : forall cfg c0 saved h s pk addr,
    NoDup (map (fun x => peer_id (fst x)) (bootstraps cfg)) -> peer_id pk <> our_id cfg ->
    In (pk, addr) (bootstraps cfg) -> reach cfg (start cfg c0 saved) h s ->
    exists pe, pool s !! peer_id pk = Some pe /\ addr ∈ p_addrs pe.
  Proof.
    intros cfg c0 saved h s pk addr Hnd Ho Hin Hr.
    destruct (boot_reach digest peer_id cfg c0 saved h s Hr (pk, addr) Hin) as [pe Hp]. exists pe. split; [exact Hp|].
    exact (proj1 (boot_addr_reach digest peer_id cfg c0 saved h s Hnd Hr) _ _ Hp Ho (pk, addr) Hin eq_refl).
  Qed.

  (** ** C78 *)

  (** The routine dials no more peers and addresses than the slots left by the
      peers connected and being dialled. *)
  Theorem C78_dials_fit : forall cfg c0 saved h s c picks unks,
    reach cfg (start cfg c0 saved) h s -> never_about_us peer_id cfg h ->
    N.of_nat (size (connected s)) + N.of_nat (size (connecting s)) < 2 ^ 64 ->
    routine_ok cfg c s picks unks ->
    busy_peers (our_id cfg) s + N.of_nat (length picks) + N.of_nat (length unks) <= max_connections cfg \/
    picks = [] /\ unks = [].
  Proof.
    intros cfg c0 saved h s c picks unks Hr Hu Hb Hok.
    rewrite <- (count_exact (our_id cfg) s (o_conn _ _ _ (own_reach digest peer_id cfg c0 saved h s Hr Hu)) Hb).
    eapply slots_bound, Hok.
  Qed.

  (** False over several routines: dials to discovered addresses are not
      counted.  With one slot, [n] addresses are all dialled, nothing having
      been reported about any of them. *)
  Definition dialled_addrs (h : list (clock * action)) : list maddr :=
    flat_map (fun x => match snd x with ARoutine _ unks => unks | _ => [] end) h.

  Theorem C78_unknown_dials_unbounded_refuted : forall pk c0 (n : nat),
    let cfg := Config pk [] 1 in
    exists h s, reach cfg (start cfg c0 []) h s /\ length (dialled_addrs h) = n /\ NoDup (dialled_addrs h) /\
      forall c a, In (c, a) h ->
        (exists addr, a = AEvent (DiscoverAddr addr)) \/ (exists addr, a = ARoutine [] [addr]).
  Proof.
    intros pk c0 n cfg.
    destruct (idle_discovers digest peer_id cfg n (start cfg c0 []) c0 (idle_start digest peer_id pk 1 c0)) as (s1 & Hr1 & Hi1).
    destruct (idle_dials digest peer_id cfg n s1 c0 n Hi1 eq_refl (le_n n)) as (s2 & Hr2 & _).
    eexists _, s2. split; [eapply reach_app; [exact Hr1|exact Hr2]|].
    assert (forall l, dialled_addrs (map (fun i => (c0, AEvent (DiscoverAddr (test_addr i)))) l) = []) as E1.
    { induction l as [|x l IH]; [reflexivity|exact IH]. }
    assert (forall l, dialled_addrs (map (fun i => (c0, ARoutine [] [test_addr i])) l) = map test_addr l) as E2.
    { induction l as [|x l IH]; [reflexivity|]. cbn. f_equal. exact IH. }
    assert (forall h1 h2, dialled_addrs (h1 ++ h2) = dialled_addrs h1 ++ dialled_addrs h2) as E3.
    { intros h1 h2. apply flat_map_app. }
    rewrite E3, E1, E2. cbn [app]. rewrite map_length, seq_length. split; [reflexivity|]. split.
    - apply NoDup_fmap_2_strong; [|apply NoDup_seq]. intros i j _ _. apply test_addr_inj.
    - intros c a Hin. apply in_app_or in Hin as [Hin|Hin]; apply in_map_iff in Hin as (i & E & _); injection E as <- <-; eauto.
  Qed.

  (** ** C83 *)

  (** False: a peer the manager is told to remove is dropped from its tables
      without any command to close its connection. *)
  Theorem C83_removed_not_disconnected_refuted : forall cfg c s p,
    let r := process_event cfg c s (RemovePeer p) in
    fst (snd r) = [] /\ peer_session (fst r) !! p = None /\ p ∉ connected (fst r).
  Proof.
    intros cfg c s p. cbn [PeerManager.process_event fst snd]. cbv zeta. split; [reflexivity|]. split.
    - apply cleanly_no_session.
    - rewrite (proj1 (cleanly_conn peer_id cfg c p s)). apply not_elem_of_difference. right. apply elem_of_singleton. reflexivity.
  Qed.

  Theorem C83_broken_session_not_disconnected_refuted : forall cfg c s p n,
    session_peer s !! n = Some p ->
    let r := process_event cfg c s (RemovePeerBySession n) in
    fst (snd r) = [] /\ peer_session (fst r) !! p = None /\ p ∉ connected (fst r).
  Proof.
    intros cfg c s p n Hn. cbn [PeerManager.process_event]. rewrite Hn. cbn [fst snd]. cbv zeta. split; [reflexivity|]. split.
    - apply cleanly_no_session.
    - rewrite (proj1 (cleanly_conn peer_id cfg c p s)). apply not_elem_of_difference. right. apply elem_of_singleton. reflexivity.
  Qed.

  (** The sixth failure of a connected peer: no command either. *)
  Theorem C83_last_failure_not_disconnected_refuted : forall cfg c s p pe,
    pool s !! p = Some pe -> retry_count (p_state pe) = 5 ->
    4 <= duration_since (sys c) (attempt_at (p_state pe)) ->
    let r := process_event cfg c s (RetryPeerLater p) in
    fst (snd r) = [] /\ peer_session (fst r) !! p = None /\ p ∉ connected (fst r).
  Proof. exact (retry_sixth_silent digest peer_id). Qed.

  (** Earlier failures of a connected peer do disconnect it, and keep it. *)
  Theorem C83_failure_disconnects : forall cfg c s p pe n,
    pool s !! p = Some pe -> peer_session s !! p = Some n -> retry_count (p_state pe) < 5 ->
    let r := process_event cfg c s (RetryPeerLater p) in
    fst (snd r) = [Disconnect n] /\ exists pe', pool (fst r) !! p = Some pe'.
  Proof.
    intros cfg c s p pe n Hp Hn Hk. cbn [PeerManager.process_event fst snd]. cbv zeta.
    assert (increase_peer_retry peer_id cfg c p s = increase_retry_count c p s) as ->.
    { unfold increase_peer_retry. cbv zeta. unfold reach_max_retry. cbn [increase_retry_count modify_peer with_pool pool].
      rewrite lookup_alter, Hp. cbn [fmap option_fmap option_map].
      destruct (MAX_RETRY_COUNT <=? retry_count (p_state (increase_retry c pe))) eqn:E; [|reflexivity].
      apply N.leb_le in E. pose proof (increase_count c pe). unfold MAX_RETRY_COUNT in E. lia. }
    cbn. rewrite Hn, lookup_alter, Hp. split; [reflexivity|]. eexists. reflexivity.
  Qed.

  (** ** C84 *)

  (** The failure count of a known peer never exceeds five. *)
  Theorem C84_count_bounded : forall cfg c0 saved h s p pe,
    reach cfg (start cfg c0 saved) h s -> pool s !! p = Some pe -> retry_count (p_state pe) <= 5.
  Proof. intros cfg c0 saved h s p pe Hr. exact (retry_reach digest peer_id cfg c0 saved h s Hr p pe). Qed.

  (** A failure reported at least four seconds after the previous one raises
      the count from [k] to [k + 1] and sets the back-off to [5^(k+1)] seconds. *)
  Theorem C84_backoff_set : forall cfg c0 saved h s c p pe,
    reach cfg (start cfg c0 saved) h s -> pool s !! p = Some pe -> retry_count (p_state pe) < 5 ->
    4 <= duration_since (sys c) (attempt_at (p_state pe)) ->
    exists pe', pool (fst (process_event cfg c s (RetryPeerLater p))) !! p = Some pe' /\
      retry_count (p_state pe') = retry_count (p_state pe) + 1 /\
      next_retry (p_state pe') = inst c + 5 ^ (retry_count (p_state pe) + 1) * 1000000000.
  Proof.
    intros cfg c0 saved h s c p pe _ Hp Hk Hd.
    destruct (counted_failure c pe Hd ltac:(lia)) as (E1 & E2 & _).
    exists (increase_retry c pe). split; [|split; assumption].
    cbn [PeerManager.process_event fst]. unfold increase_peer_retry. cbv zeta.
    assert (pool (increase_retry_count c p s) !! p = Some (increase_retry c pe)) as E.
    { cbn. rewrite lookup_alter, Hp. reflexivity. }
    unfold reach_max_retry. rewrite E, E1.
    destruct (MAX_RETRY_COUNT <=? retry_count (p_state pe) + 1) eqn:Eb; [|exact E].
    apply N.leb_le in Eb. unfold MAX_RETRY_COUNT in Eb. lia.
  Qed.

  (** Until its back-off has passed a peer is not dialled, whatever happens,
      unless a further failure, close or removal of it is reported. *)
  Theorem C84_backoff_respected : forall cfg c0 saved h1 s1 h2 s2 p pe,
    distinct_ids (start_keys cfg saved) ->
    reach cfg (start cfg c0 saved) h1 s1 -> pool s1 !! p = Some pe -> reach cfg s1 h2 s2 ->
    (forall c a, In (c, a) h2 ->
       ~ (drops peer_id (h1 ++ h2) p a /\ ~ opens_peer peer_id a p) /\ ~ reports_timeout a) ->
    forall c a, In (c, a) h2 -> dials_peer a p -> next_retry (p_state pe) < inst c.
  Proof.
    intros cfg c0 saved h1 s1 h2 s2 p pe Hd Hr1 Hp Hr2 Hq.
    pose proof (inv_reach _ _ _ _ _ _ (proj1 (inv_start digest peer_id cfg c0 saved Hd)) Hr1) as Hi.
    exact (proj2 (proj2 (backoff_kept digest peer_id cfg c0 saved h1 s1 h2 s2 p pe Hr1 Hp Hr2 Hi Hq))).
  Qed.

  (** False of bootstraps: at its sixth failure a bootstrap is to get the
      back-off of a second failure (25 s); it gets count 0 and the back-off of
      the sixth (over four hours). *)
  Theorem C84_bootstrap_reset_refuted : forall cfg c s p pe,
    pool s !! p = Some pe -> is_bootstrap_peer peer_id cfg p = true -> retry_count (p_state pe) = 5 ->
    4 <= duration_since (sys c) (attempt_at (p_state pe)) ->
    exists pe', pool (fst (process_event cfg c s (RetryPeerLater p))) !! p = Some pe' /\
      retry_count (p_state pe') = 0 /\ next_retry (p_state pe') = inst c + 15625 * 1000000000.
  Proof. intros cfg c s p pe Hp Hb Hk Hd. exact (boot_sixth digest peer_id cfg c s p pe Hp Hb Hk Hd). Qed.
End PropPeers.

Print Assumptions C74_tables_consistent.
Print Assumptions C74_recorded_is_latest.
Print Assumptions C74_open_session_recorded.
Print Assumptions C74_late_close_refuted.
Print Assumptions C75_sent_or_missed.
Print Assumptions C76_address_forgotten_refuted.
Print Assumptions C76_dial_never_retried_refuted.
Print Assumptions C76_candidate_iff.
Print Assumptions C76_closed_is_freed.
Print Assumptions C77_bootstraps_kept.
Print Assumptions C77_bootstrap_addresses_kept.
Print Assumptions C78_dials_fit.
Print Assumptions C78_unknown_dials_unbounded_refuted.
Print Assumptions C83_removed_not_disconnected_refuted.
Print Assumptions C83_broken_session_not_disconnected_refuted.
Print Assumptions C83_last_failure_not_disconnected_refuted.
Print Assumptions C83_failure_disconnects.
Print Assumptions C84_count_bounded.
Print Assumptions C84_backoff_set.
Print Assumptions C84_backoff_respected.
Print Assumptions C84_bootstrap_reset_refuted.
