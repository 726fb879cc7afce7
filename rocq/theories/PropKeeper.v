(** * C86-C88: the transport, the keeper and the manager together.
    Environment: the runs of Keeper.v; vocabulary: [open_with], [opened_by],
    [closed_in], [about_session] (KeeperMore.v), [known_addrs] (KeeperProps.v). *)
From Coq Require Import List Bool NArith Lia.
From stdpp Require Import base decidable list gmap sets fin_sets.
From Verif Require Import Base Types PeerManager PmSpec PmFacts PmMore PmPeers PmProps PmProps3
  Keeper KeeperFacts KeeperProps KeeperMore.
Import ListNotations.
Local Open Scope N_scope.

Section PropKeeper.
  Context (digest : bytes -> hash) (peer_id : pubkey -> pid).
  Notation pubkey_user := (pubkey_user digest).
  Notation process_event := (process_event digest peer_id).
  Notation net_run := (net_run digest peer_id).
  Notation net_start := (net_start digest peer_id).
  Notation distinct_ids := (distinct_ids peer_id).
  Notation distinct_users := (distinct_users digest).
  Notation about_session := (about_session peer_id).

  (** The keys a run involves. *)
  Definition run_keys (cfg : config) (saved : list (pubkey * peer_state)) (ls : list label) : list pubkey :=
    start_keys cfg saved ++ net_keys ls.

  Lemma run_keys_net cfg saved ls : distinct_ids (run_keys cfg saved ls) -> distinct_ids (net_keys ls).
  Proof. intros H k1 k2 H1 H2. apply H; apply in_or_app; right; assumption. Qed.

  (** ** C86 *)

  (** The session recorded for a peer was opened by the holder of its key, and
      is open, or the report of its close is waiting to be processed. *)
  Theorem C86_recorded_is_open : forall cfg c saved ls n p m,
    distinct_ids (net_keys ls) -> net_run cfg (net_start cfg c saved) ls n ->
    peer_session (nt_mgr n) !! p = Some m ->
    exists pk, peer_id pk = p /\ opened_by ls pk m /\
      (open_with n pk m \/ exists ty, In (DetachPeerSession p m ty) (nt_queue n)).
  Proof.
    intros cfg c saved ls n p m Hd Hr Hp. pose proof (ninv_run _ _ _ _ _ _ _ Hd Hr) as Hi.
    destruct (proj1 (run_opened _ _ _ _ _ _ _ Hr) p m Hp) as (pk & Epk & Ho). exists pk. split; [exact Epk|]. split; [exact Ho|].
    destruct (n_play _ _ _ _ Hi p) as (o & o' & H1 & H2 & H3). rewrite (H2 m Hp) in H1.
    apply replay_some in H1 as [->|H1]; [|right; exact H1]. left.
    destruct (proj1 (H3 m) eq_refl) as (x & pk' & Hx & Hpk' & E). exists x. split; [exact Hx|]. rewrite Hpk'. f_equal.
    apply Hd; [| |congruence].
    - destruct (n_open _ _ _ _ Hi _ _ Hx) as (_ & _ & pk2 & Hk2 & Hin & _). rewrite Hpk' in Hk2. injection Hk2 as <-. exact Hin.
    - destruct Ho as (y & Hy & _ & Hyk). unfold net_keys. apply in_flat_map. eexists. split; [exact Hy|]. cbn. rewrite Hyk. left. reflexivity.
  Qed.

  (** The two session tables are exact inverses of each other. *)
  Theorem C86_tables_inverse : forall cfg c saved ls n p m,
    distinct_ids (net_keys ls) -> net_run cfg (net_start cfg c saved) ls n ->
    session_peer (nt_mgr n) !! m = Some p <-> peer_session (nt_mgr n) !! p = Some m.
  Proof. intros cfg c saved ls n p m Hd Hr. exact (n_inv _ _ _ _ (ninv_run _ _ _ _ _ _ _ Hd Hr) m p). Qed.

  (** The report of a close never reaches the manager while it records another
      session of that peer: the late close of C74 does not happen. *)
  Theorem C86_close_is_current : forall cfg c saved ls n p m ty q m',
    distinct_ids (net_keys ls) -> net_run cfg (net_start cfg c saved) ls n ->
    nt_queue n = DetachPeerSession p m ty :: q -> peer_session (nt_mgr n) !! p = Some m' -> m' = m.
  Proof.
    intros cfg c saved ls n p m ty q m' Hd Hr Eq Hp. pose proof (ninv_run _ _ _ _ _ _ _ Hd Hr) as Hi.
    destruct (n_play _ _ _ _ Hi p) as (o & o' & H1 & H2 & _). rewrite Eq, (H2 _ Hp) in H1. cbn [replay replay1] in H1.
    rewrite decide_True in H1 by reflexivity. destruct (decide (Some m' = Some m)) as [E|]; [congruence|discriminate].
  Qed.

  (** An open session whose opening has been processed is the one recorded, or
      none is. *)
  Theorem C86_open_is_recorded_or_none : forall cfg c saved ls n pk m,
    distinct_ids (net_keys ls) -> net_run cfg (net_start cfg c saved) ls n ->
    open_with n pk m -> (forall e, In e (nt_queue n) -> ~ about_session (peer_id pk) e) ->
    peer_session (nt_mgr n) !! peer_id pk = Some m \/ peer_session (nt_mgr n) !! peer_id pk = None.
  Proof.
    intros cfg c saved ls n pk m Hd Hr (x & Hx & Hk) Hq. pose proof (ninv_run _ _ _ _ _ _ _ Hd Hr) as Hi.
    destruct (n_play _ _ _ _ Hi (peer_id pk)) as (o & o' & H1 & H2 & H3).
    rewrite replay_quiet in H1.
    2: { apply Forall_forall. intros e He. apply elem_of_list_In, Hq in He. destruct e; cbn in *; try exact I; exact He. }
    injection H1 as <-. assert (o = Some m) as ->. { apply H3. exists x, pk. auto. }
    destruct (peer_session (nt_mgr n) !! peer_id pk) as [m'|] eqn:E; [|right; reflexivity]. left. symmetry. apply H2. reflexivity.
  Qed.

  (** A routed message is sent, for each addressee with a recorded session, on a
      session opened by the holder of that addressee's key, open or whose
      close is waiting; the other addressees are reported as missed. *)
  Theorem C86_routed_to_its_addressees : forall cfg c0 saved ls n users msg pri q c,
    distinct_ids (run_keys cfg saved ls) -> distinct_users (run_keys cfg saved ls) ->
    net_run cfg (net_start cfg c0 saved) ls n ->
    nt_queue n = RouteMultiUsersMessage users msg pri :: q ->
    exists (f : user_address -> option sid) addrs missed,
      process_event cfg c (nt_mgr n) (RouteMultiUsersMessage users msg pri) =
        (nt_mgr n, ([SendMsg (omap f users) msg pri; Connect addrs], Some missed)) /\
      Permutation missed (filter (fun u => f u = None) users) /\
      (forall u m, f u = Some m -> exists pk, pubkey_user pk = u /\ opened_by ls pk m /\
         (open_with n pk m \/ exists ty, In (DetachPeerSession (peer_id pk) m ty) q)) /\
      (forall pk, In pk (run_keys cfg saved ls) -> f (pubkey_user pk) = peer_session (nt_mgr n) !! peer_id pk).
  Proof.
    intros cfg c0 saved ls n users msg pri q c Hid Hus Hr Eq.
    destruct (run_reach _ _ _ _ _ _ _ Hr) as (h & Hh & Hkeys).
    assert (incl (all_keys cfg saved h) (run_keys cfg saved ls)) as Hinc.
    { intros k Hk. unfold all_keys, run_keys in *. apply in_app_or in Hk as [Hk|Hk]; apply in_or_app; [left; exact Hk|right].
      apply Hkeys. apply in_or_app. left. exact Hk. }
    destruct (users_reach _ _ _ _ _ _ _ (distinct_sub peer_id _ _ Hinc Hid) (distinct_sub pubkey_user _ _ Hinc Hus) Hh) as [Hi Hu].
    pose proof (pool_keys_reach _ _ _ _ _ _ _ Hh) as Hk.
    destruct (route_eq users msg pri (nt_mgr n) (i_user _ _ _ _ Hi)) as (addrs & missed & E & Hm & _).
    exists (session_for (nt_mgr n)), addrs, missed. cbn [PeerManager.process_event]. rewrite E.
    split; [reflexivity|]. split; [exact Hm|].
    assert (forall u m, session_for (nt_mgr n) u = Some m -> exists pk, In pk (run_keys cfg saved ls) /\ pubkey_user pk = u /\
      peer_session (nt_mgr n) !! peer_id pk = Some m) as Hf.
    { intros u m Hf. apply (session_for_spec _ _ cfg _ u m _ Hi Hu Hk) in Hf as (p & pe & Hp & Hpu & Hps).
      destruct (i_peer _ _ _ _ Hi _ _ Hp) as (_ & Hwu & Hwk). exists (p_pubkey pe). split; [apply Hinc, (Hk _ _ Hp)|].
      split; congruence. }
    split.
    - intros u m Hfu. destruct (Hf u m Hfu) as (pk & Hin & Epk & Hps).
      destruct (C86_recorded_is_open cfg c0 saved ls n (peer_id pk) m (run_keys_net _ _ _ Hid) Hr Hps) as (pk' & E' & Ho & Hor).
      assert (pk' = pk) as ->.
      { apply Hid; [|exact Hin|exact E']. apply in_or_app. right. destruct Ho as (y & Hy & _ & Hyk). unfold net_keys.
        apply in_flat_map. eexists. split; [exact Hy|]. cbn. rewrite Hyk. left. reflexivity. }
      exists pk. split; [exact Epk|]. split; [exact Ho|]. destruct Hor as [Hop|(ty & Hty)]; [left; exact Hop|].
      right. exists ty. rewrite Eq in Hty. destruct Hty as [Hty|Hty]; [discriminate|exact Hty].
    - intros pk Hin. destruct (peer_session (nt_mgr n) !! peer_id pk) as [m|] eqn:Ep.
      + apply (session_for_spec _ _ cfg _ _ m _ Hi Hu Hk).
        destruct (i_ps _ _ _ _ Hi _ _ Ep) as (_ & pe & Hp). exists (peer_id pk), pe. split; [exact Hp|]. split; [|exact Ep].
        destruct (i_peer _ _ _ _ Hi _ _ Hp) as (_ & Hwu & Hwk). rewrite Hwu. f_equal.
        apply Hid; [apply Hinc, (Hk _ _ Hp)|exact Hin|exact Hwk].
      + destruct (session_for (nt_mgr n) (pubkey_user pk)) as [m|] eqn:Es; [|reflexivity].
        destruct (Hf _ _ Es) as (pk' & Hin' & Eu & Hps). apply Hus in Eu; [|assumption..]. subst pk'. congruence.
  Qed.

  (** False: "an open session is used".  Once the manager has forgotten an open
      session, it does not come back while the session is open: it stays
      unrecorded, and every message routed to its user is reported missed. *)
  Theorem C86_forgotten_session_refuted : forall cfg c0 saved l1 n1 l2 n2 pk m c users msg pri,
    distinct_ids (run_keys cfg saved (l1 ++ l2)) -> distinct_users (run_keys cfg saved (l1 ++ l2)) ->
    net_run cfg (net_start cfg c0 saved) l1 n1 ->
    open_with n1 pk m -> peer_session (nt_mgr n1) !! peer_id pk = None ->
    (forall e, In e (nt_queue n1) -> ~ about_session (peer_id pk) e) ->
    net_run cfg n1 l2 n2 -> ~ closed_in l2 m ->
    open_with n2 pk m /\ peer_session (nt_mgr n2) !! peer_id pk = None /\
    (In (pubkey_user pk) users -> exists missed,
       snd (snd (process_event cfg c (nt_mgr n2) (RouteMultiUsersMessage users msg pri))) = Some missed /\
       In (pubkey_user pk) missed).
  Proof.
    intros cfg c0 saved l1 n1 l2 n2 pk m c users msg pri Hid Hus Hr1 Ho Hn Hq Hr2 Hc.
    destruct (forgotten digest peer_id cfg c0 saved l1 n1 l2 n2 pk m (run_keys_net _ _ _ Hid) Hr1 Ho Hn) as (H1 & H2 & _); [|assumption..|].
    { apply Forall_forall. intros e He. apply elem_of_list_In, Hq in He. destruct e; cbn in *; try exact I; exact He. }
    split; [exact H1|]. split; [exact H2|]. intros Hin.
    pose proof (run_app _ _ _ _ _ _ _ _ Hr1 Hr2) as Hr.
    destruct (run_reach _ _ _ _ _ _ _ Hr) as (h & Hh & Hkeys).
    assert (incl (all_keys cfg saved h) (run_keys cfg saved (l1 ++ l2))) as Hinc.
    { intros k Hk. unfold all_keys, run_keys in *. apply in_app_or in Hk as [Hk|Hk]; apply in_or_app; [left; exact Hk|right].
      apply Hkeys. apply in_or_app. left. exact Hk. }
    destruct (users_reach _ _ _ _ _ _ _ (distinct_sub peer_id _ _ Hinc Hid) (distinct_sub pubkey_user _ _ Hinc Hus) Hh) as [Hi Hu].
    pose proof (pool_keys_reach _ _ _ _ _ _ _ Hh) as Hk.
    destruct (route_eq users msg pri (nt_mgr n2) (i_user _ _ _ _ Hi)) as (addrs & missed & E & Hm & _).
    exists missed. cbn [PeerManager.process_event]. rewrite E. split; [reflexivity|].
    eapply Permutation_in; [symmetry; exact Hm|]. apply elem_of_list_In, elem_of_list_filter. split; [|apply elem_of_list_In, Hin].
    destruct (session_for (nt_mgr n2) (pubkey_user pk)) as [m'|] eqn:Es; [|reflexivity].
    apply (session_for_spec _ _ cfg _ _ m' _ Hi Hu Hk) in Es as (p & pe & Hp & Hpu & Hps).
    destruct (i_peer _ _ _ _ Hi _ _ Hp) as (_ & Hwu & Hwk).
    assert (p_pubkey pe = pk) as <-; [|congruence].
    apply Hus; [apply Hinc, (Hk _ _ Hp)| |congruence].
    apply in_or_app. right. destruct H1 as (y & Hy & Hyk).
    destruct (n_open _ _ _ _ (ninv_run _ _ _ _ _ _ _ (run_keys_net _ _ _ Hid) Hr) _ _ Hy) as (_ & _ & pk2 & Hk2 & Hin2 & _).
    congruence.
  Qed.

  (** ** C87 *)

  (** False: "the node has at most [max_connections] connections".  Any number
      of peers can open a session with it; all are accepted and recorded, none
      is told to close. *)
  Theorem C87_inbound_unbounded_refuted : forall cfg c0 saved (c : clock) keys,
    NoDup (map peer_id (our_pubkey cfg :: keys)) ->
    exists ls n, net_run cfg (net_start cfg c0 saved) ls n /\ nt_queue n = [] /\ nt_out n = [] /\
      (forall pk, In pk keys -> exists m, open_with n pk m /\ peer_session (nt_mgr n) !! peer_id pk = Some m) /\
      (length keys <= size (connected (nt_mgr n)))%nat.
  Proof.
    intros cfg c0 saved c keys Hnd.
    destruct (inbound digest peer_id cfg c0 saved c keys) as (ls & n & Hr & E1 & E2 & H1 & _ & H3 & H4).
    { exact Hnd. }
    exists ls, n. split; [exact Hr|]. split; [exact E2|]. split; [exact E1|]. split.
    - intros pk Hin. destruct (H3 pk Hin) as (m & Ho & E). exists m. split; [exact Ho|exact E].
    - transitivity (size (list_to_set (map peer_id keys) : gset pid)).
      + rewrite size_list_to_set; [rewrite map_length; reflexivity|]. cbn in Hnd. apply NoDup_cons in Hnd as [_ Hnd]. exact Hnd.
      + apply subseteq_size. intros p Hp. apply elem_of_list_to_set, elem_of_list_In, in_map_iff in Hp as (pk & <- & Hin). apply H4, Hin.
  Qed.

  (** ** C88 *)

  (** Every address the node dials, and every one it can hand to other peers,
      was configured, loaded from the saved peers, or told to it: the address
      of a session it opened itself, one announced or discovered, or its own. *)
  Theorem C88_addresses_were_told : forall cfg c saved ls n,
    net_run cfg (net_start cfg c saved) ls n ->
    (forall addrs a, In (Connect addrs) (nt_out n) -> In a addrs -> In a (known_addrs cfg saved ls)) /\
    (forall chosen a, In a (random_addrs (nt_mgr n) chosen) -> In a (known_addrs cfg saved ls)).
  Proof.
    intros cfg c saved ls n Hr. destruct (addrs_run _ _ _ _ _ _ _ Hr) as (H1 & _ & H3). split; [exact H3|].
    intros chosen a Ha. unfold random_addrs in Ha. apply in_concat in Ha as (l & Hl & Ha). apply in_map_iff in Hl as (p & <- & _).
    unfold peer_addrs in Ha. destruct (pool (nt_mgr n) !! p) as [pe|] eqn:E; [|destruct Ha].
    apply (proj1 H1 _ _ a E). apply elem_of_elements, elem_of_list_In, Ha.
  Qed.

  (** False: "a failure to reach an address counts against the peer the node
      dialled there".  Any other known peer that announces the same address
      takes the failure over: the record of the dialled peer is not touched,
      and an unreachable address is never removed from it. *)
  Theorem C88_failure_charged_to_another_refuted : forall cfg c1 c2 s p q l a,
    p <> q -> is_Some (pool s !! p) -> In a l ->
    let s1 := fst (process_event cfg c1 s (IdentifiedAddrs p l)) in
    pool (fst (process_event cfg c2 s1 (ReconnectLater a))) !! q = pool s !! q /\
    pool (fst (process_event cfg c2 s1 (UnconnectableAddress a))) !! q = pool s !! q.
  Proof.
    intros cfg c1 c2 s p q l a Hne Hp Hin. cbv zeta. cbn [PeerManager.process_event fst].
    destruct (identified_frame p l s) as (F1 & F2 & F3 & _). destruct (F2 Hp) as [_ Fa]. specialize (Fa a Hin).
    set (s1 := fold_left (fun s a => add_peer_addr p a s) l s) in *. split.
    - fold (reconnect_unknown a s1). destruct (reconnect_frame a s1) as [u Hu]. rewrite Hu.
      rewrite (match_direct a (with_unknowns u s1) p Fa).
      destruct (peer_connected p (with_unknowns u s1)); [apply F1; congruence|].
      rewrite increase_other by congruence. apply F1. congruence.
    - destruct (decide _); [apply F1; congruence|]. unfold try_remove_addr.
      replace (addr_pid (with_unknowns (delete a (unknowns s1)) s1) !! a) with (Some p) by (symmetry; exact Fa).
      cbn. rewrite lookup_alter_ne by exact Hne. apply F1. congruence.
  Qed.

  (** The failure is charged to the peer the address table names, if it is not
      connected, and to nobody else. *)
  Theorem C88_failure_charged_to_last_claimant : forall cfg c s p a pe,
    addr_pid s !! a = Some p -> p ∉ connected s -> pool s !! p = Some pe ->
    4 <= duration_since (sys c) (attempt_at (p_state pe)) -> retry_count (p_state pe) < 5 ->
    let s' := fst (process_event cfg c s (ReconnectLater a)) in
    (exists pe', pool s' !! p = Some pe' /\ retry_count (p_state pe') = retry_count (p_state pe) + 1 /\
       next_retry (p_state pe') = inst c + 5 ^ (retry_count (p_state pe) + 1) * 1000000000) /\
    (forall q, q <> p -> pool s' !! q = pool s !! q).
  Proof.
    intros cfg c s p a pe Ha Hc Hp Hd Hk. cbv zeta. cbn [PeerManager.process_event fst].
    fold (reconnect_unknown a s). destruct (reconnect_frame a s) as [u Hu]. rewrite Hu.
    rewrite (match_direct a (with_unknowns u s) p Ha). unfold peer_connected. rewrite bool_decide_eq_false_2 by exact Hc.
    split; [|intros q Hq; rewrite increase_other by exact Hq; reflexivity].
    assert (pool (increase_retry_count c p (with_unknowns u s)) !! p = Some (increase_retry c pe)) as E.
    { cbn. rewrite lookup_alter, Hp. reflexivity. }
    destruct (counted_failure c pe Hd) as (R1 & R2 & _); [lia|].
    exists (increase_retry c pe). split; [|split; [exact R1|exact R2]].
    unfold increase_peer_retry. cbv zeta. unfold reach_max_retry. rewrite E.
    rewrite (proj2 (N.leb_gt _ _)); [exact E|]. rewrite R1. unfold MAX_RETRY_COUNT. lia.
  Qed.
End PropKeeper.

Print Assumptions C86_recorded_is_open.
Print Assumptions C86_tables_inverse.
Print Assumptions C86_close_is_current.
Print Assumptions C86_open_is_recorded_or_none.
Print Assumptions C86_routed_to_its_addressees.
Print Assumptions C86_forgotten_session_refuted.
Print Assumptions C87_inbound_unbounded_refuted.
Print Assumptions C88_addresses_were_told.
Print Assumptions C88_failure_charged_to_another_refuted.
Print Assumptions C88_failure_charged_to_last_claimant.
