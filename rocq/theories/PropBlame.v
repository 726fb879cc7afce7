(** * C103: what the transport reports is held against the address or the peer
    it is about.  Environment: Keeper.v. *)
From Coq Require Import List Bool NArith Lia.
From stdpp Require Import base decidable list gmap sets fin_sets.
From Verif Require Import Base Types PeerManager PmSpec PmFacts PmMore PmPeers PmProps PmProps3
  Keeper KeeperFacts KeeperProps KeeperMore PropKeeper.
Import ListNotations.
Local Open Scope N_scope.

(** ** Vocabulary *)

(** The report shows [a] to be an address of the node itself. *)
Definition shows_ours (e : tevent) (a : maddr) : Prop :=
  e = TError (DialerError ConnectSelf a) \/ e = TError (ListenError ConnectSelf a) \/ e = TEvent (ListenStarted a).
(** Dialling [a] failed in a way that may pass, or for good. *)
Definition fails_now (e : tevent) (a : maddr) : Prop :=
  exists t, (t = IoTimedOut \/ t = IoInterrupted) /\ (e = TError (DialerError t a) \/ e = TError (ListenError t a)).
Definition fails_for_good (e : tevent) (a : maddr) : Prop :=
  e = TError (DialerError OtherTent a) \/ e = TError (ListenError OtherTent a).

Section Blame.
  Context (digest : bytes -> hash) (peer_id : pubkey -> pid).
  Notation net_step := (net_step digest peer_id).
  Notation our_id := (our_id peer_id).
  Notation process_event := (process_event digest peer_id).

  (** Something about peer [p] that may pass: its session timed out or its
      streams broke, no protocol could be agreed on, pings fail. *)
  Definition passing (e : tevent) (p : pid) : Prop :=
    e = TPing (PingTimeout p) \/ e = TPing (PingUnexpected p) \/
    exists x pk, sx_pk x = Some pk /\ peer_id pk = p /\
      (e = TError (SessionTimeout x) \/ e = TError (MuxerError x) \/ e = TError (ProtocolSelectError x None)).
  (** Something a peer is dropped for: it wants a protocol the node does not
      have; or, of the peer whose session it is: a broken protocol, a blocked
      session, misbehaviour in discovery. *)
  Definition grave (n : net) (e : tevent) (p : pid) : Prop :=
    (exists x pk name, sx_pk x = Some pk /\ peer_id pk = p /\ e = TError (ProtocolSelectError x (Some name))) \/
    exists m, session_peer (nt_mgr n) !! m = Some p /\
      (e = TError (ProtocolError m) \/ e = TDisc (DiscMisbehave m) \/
       exists x, sx_id x = m /\ sx_pk x <> None /\ e = TError (SessionBlocked x)).
  (** Nothing the manager is told of. *)
  Definition of_nobody (e : tevent) : Prop :=
    e = TError ProtocolHandleError \/ e = TIdent ReceivedIdentify \/
    (exists p a, e = TIdent (AddObservedAddr p a)) \/ (exists p, e = TIdent (IdentMisbehave p)) \/
    exists x, sx_pk x = None /\
      (e = TError (SessionTimeout x) \/ e = TError (MuxerError x) \/ e = TError (SessionBlocked x) \/
       (exists o, e = TError (ProtocolSelectError x o)) \/ e = TEvent (SessionOpen x) \/ e = TEvent (SessionClose x)).

  (** [n'] is [n] once it has heard [e]: the transport reports it and the manager
      processes what was reported, if anything. *)
  Definition hears (cfg : config) (c : clock) (n : net) (e : tevent) (n' : net) : Prop :=
    exists n1, net_step cfg n (LReport e) = Some n1 /\
      (net_step cfg n1 (LManage c) = Some n' \/ net_step cfg n1 (LManage c) = None /\ n' = n1).

  (** What the node holds about peer [q] is the same in both: its record, its
      session, whether it is connected or being dialled. *)
  Definition same_peer (n n' : net) (q : pid) : Prop :=
    pool (nt_mgr n') !! q = pool (nt_mgr n) !! q /\
    peer_session (nt_mgr n') !! q = peer_session (nt_mgr n) !! q /\
    (q ∈ connected (nt_mgr n') <-> q ∈ connected (nt_mgr n)) /\
    (q ∈ connecting (nt_mgr n') <-> q ∈ connecting (nt_mgr n)).

  Lemma hears_one cfg c n e n' v : nt_queue n = [] -> reports peer_id e = [v] -> hears cfg c n e n' ->
    nt_mgr n' = fst (process_event cfg c (nt_mgr n) v) /\
    nt_out n' = nt_out n ++ fst (snd (process_event cfg c (nt_mgr n) v)) /\ nt_queue n' = [].
  Proof.
    intros Hq Hv (n1 & E1 & H). cbn [Keeper.net_step] in E1. injection E1 as <-.
    rewrite Hq, Hv in H. cbn [app Keeper.net_step nt_queue nt_mgr nt_out] in H.
    destruct H as [H|[H _]]; [injection H as <-; auto|discriminate].
  Qed.
  Lemma hears_none cfg c n e n' : nt_queue n = [] -> reports peer_id e = [] -> hears cfg c n e n' ->
    nt_mgr n' = nt_mgr n /\ nt_out n' = nt_out n /\ nt_queue n' = [].
  Proof.
    intros Hq Hv (n1 & E1 & H). cbn [Keeper.net_step] in E1. injection E1 as <-.
    rewrite Hq, Hv in H. cbn [app Keeper.net_step nt_queue nt_mgr nt_out] in H.
    destruct H as [H|[_ ->]]; [discriminate|auto].
  Qed.
  Lemma same_all n n' : pool (nt_mgr n') = pool (nt_mgr n) -> peer_session (nt_mgr n') = peer_session (nt_mgr n) ->
    connected (nt_mgr n') = connected (nt_mgr n) -> connecting (nt_mgr n') = connecting (nt_mgr n) ->
    forall q, same_peer n n' q.
  Proof. intros E1 E2 E3 E4 q. unfold same_peer. rewrite E1, E2, E3, E4. tauto. Qed.

  (** ** C103 *)

  (** An address at which the node found itself, or on which it listens, is
      from then on one of its own (which it tells other peers and, being
      "connected" to itself, never dials); no other peer is affected. *)
  Theorem C103_own_address : forall cfg c n e n' a pe,
    nt_queue n = [] -> pool (nt_mgr n) !! our_id cfg = Some pe ->
    shows_ours e a -> hears cfg c n e n' ->
    (exists pe', pool (nt_mgr n') !! our_id cfg = Some pe' /\ p_addrs pe' = {[a]} ∪ p_addrs pe) /\
    match_pid a (nt_mgr n') = Some (our_id cfg) /\
    (forall q, q <> our_id cfg -> same_peer n n' q) /\ nt_out n' = nt_out n.
  Proof.
    intros cfg c n e n' a pe Hq Hp He Hh.
    assert (reports peer_id e = [AddListenAddr a]) as Hv by (destruct He as [->|[->| ->]]; reflexivity).
    destruct (hears_one _ _ _ _ _ _ Hq Hv Hh) as (E1 & E2 & _). cbn [PeerManager.process_event fst snd] in E1, E2.
    rewrite app_nil_r in E2. unfold add_peer_addr in E1. rewrite Hp in E1.
    split; [|split; [|split; [|exact E2]]].
    - rewrite E1. cbn [modify_peer with_pool with_addr_pid pool]. rewrite lookup_alter, Hp. eexists. split; reflexivity.
    - rewrite E1. apply match_direct. cbn [modify_peer with_pool with_addr_pid addr_pid]. apply lookup_insert.
    - intros q Hne. unfold same_peer. rewrite E1. cbn [modify_peer with_pool with_addr_pid pool peer_session connected connecting].
      rewrite lookup_alter_ne by congruence. tauto.
  Qed.

  (** An address the node stops listening on is none of its own any more. *)
  Theorem C103_own_address_gone : forall cfg c n n' a pe,
    nt_queue n = [] -> pool (nt_mgr n) !! our_id cfg = Some pe ->
    hears cfg c n (TEvent (ListenClose a)) n' ->
    (exists pe', pool (nt_mgr n') !! our_id cfg = Some pe' /\ p_addrs pe' = p_addrs pe ∖ {[a]}) /\
    (forall q, q <> our_id cfg -> same_peer n n' q) /\ nt_out n' = nt_out n.
  Proof.
    intros cfg c n n' a pe Hq Hp Hh.
    destruct (hears_one _ _ _ (TEvent (ListenClose a)) _ (RemoveListenAddr a) Hq eq_refl Hh) as (E1 & E2 & _). cbn [PeerManager.process_event fst snd] in E1, E2.
    rewrite app_nil_r in E2. unfold remove_peer_addr in E1. split; [|split; [|exact E2]].
    - rewrite E1. cbn [modify_peer with_pool with_addr_pid pool]. rewrite lookup_alter, Hp. eexists. split; reflexivity.
    - intros q Hne. unfold same_peer. rewrite E1. cbn [modify_peer with_pool with_addr_pid pool peer_session connected connecting].
      rewrite lookup_alter_ne by congruence. tauto.
  Qed.

  (** A dial that may succeed later costs no peer an address: whoever is still
      known keeps all of its addresses, and all but the peer the address leads
      to stay as they are; nobody connected is affected. *)
  Theorem C103_dial_may_succeed_later : forall cfg c n e n' a,
    nt_queue n = [] -> fails_now e a -> hears cfg c n e n' ->
    (forall q pe', pool (nt_mgr n') !! q = Some pe' ->
       exists pe, pool (nt_mgr n) !! q = Some pe /\ p_addrs pe' = p_addrs pe) /\
    (forall q, match_pid a (nt_mgr n) <> Some q \/ q ∈ connected (nt_mgr n) -> same_peer n n' q) /\ nt_out n' = nt_out n.
  Proof.
    intros cfg c n e n' a Hq He Hh.
    assert (reports peer_id e = [ReconnectLater a]) as Hv by (destruct He as (t & [->| ->] & [->| ->]); reflexivity).
    destruct (hears_one _ _ _ _ _ _ Hq Hv Hh) as (E1 & E2 & _). cbn [PeerManager.process_event fst snd] in E1, E2.
    rewrite app_nil_r in E2. fold (reconnect_unknown a (nt_mgr n)) in E1.
    destruct (reconnect_frame a (nt_mgr n)) as [u Hu]. rewrite Hu in E1.
    change (match_pid a (with_unknowns u (nt_mgr n))) with (match_pid a (nt_mgr n)) in E1.
    assert (forall q, same_peer n (Net (nt_open n') (nt_used n') (nt_queue n') (with_unknowns u (nt_mgr n)) (nt_out n')) q) as Hsame
      by (intros q; unfold same_peer; cbn; tauto).
    assert (forall s p q, q <> p -> peer_session (increase_peer_retry peer_id cfg c p s) !! q = peer_session s !! q) as Hps.
    { intros s p q Hne. destruct (increase_sess peer_id cfg c p s) as [[-> _]|[-> _]]; [reflexivity|].
      unfold closed_ps. apply lookup_delete_ne. congruence. }
    assert (forall s p q, q <> p -> (q ∈ connected (increase_peer_retry peer_id cfg c p s) <-> q ∈ connected s) /\
      (q ∈ connecting (increase_peer_retry peer_id cfg c p s) <-> q ∈ connecting s)) as Hcn.
    { intros s p q Hne. destruct (increase_conn peer_id cfg c p s) as [[-> ->]|[-> ->]]; set_solver. }
    split; [|split; [|exact E2]].
    - rewrite E1. intros q pe' Hpe'. destruct (match_pid a (nt_mgr n)) as [p|]; [|exists pe'; split; [exact Hpe'|reflexivity]].
      destruct (peer_connected p (with_unknowns u (nt_mgr n))); [exists pe'; split; [exact Hpe'|reflexivity]|].
      destruct (decide (q = p)) as [->|Hne].
      + revert Hpe'. unfold increase_peer_retry. cbv zeta.
        destruct (reach_max_retry p _).
        * rewrite cleanly_eq. cbv zeta. destruct (is_bootstrap_peer peer_id cfg p); cbn [pool]; [|rewrite lookup_delete; discriminate].
          rewrite lookup_alter. cbn [increase_retry_count modify_peer with_pool with_unknowns pool]. rewrite lookup_alter.
          destruct (pool (nt_mgr n) !! p) as [pe|]; [|discriminate]. cbn. intros [= <-]. exists pe. split; [reflexivity|].
          unfold p_addrs, boot_penalty, increase_retry. repeat (match goal with |- context [if ?b then _ else _] => destruct b end); reflexivity.
        * cbn [increase_retry_count modify_peer with_pool with_unknowns pool]. rewrite lookup_alter.
          destruct (pool (nt_mgr n) !! p) as [pe|]; [|discriminate]. cbn. intros [= <-]. exists pe. split; [reflexivity|].
          unfold p_addrs, increase_retry. repeat (match goal with |- context [if ?b then _ else _] => destruct b end); reflexivity.
      + rewrite increase_other in Hpe' by exact Hne. exists pe'. split; [exact Hpe'|reflexivity].
    - intros q Hor. unfold same_peer. rewrite E1. destruct (match_pid a (nt_mgr n)) as [p|] eqn:Em; [|apply Hsame].
      destruct (peer_connected p (with_unknowns u (nt_mgr n))) eqn:Ec; [apply Hsame|].
      assert (q <> p) as Hne.
      { destruct Hor as [H|H]; [congruence|]. intros ->. unfold peer_connected in Ec. apply bool_decide_eq_false in Ec. apply Ec, H. }
      rewrite increase_other, Hps by exact Hne. destruct (Hcn (with_unknowns u (nt_mgr n)) p q Hne) as [Hc1 Hc2].
      split; [reflexivity|]. split; [reflexivity|]. split; [exact Hc1|exact Hc2].
  Qed.

  (** ... and it counts as a failure of the peer the address leads to. *)
  Theorem C103_dial_counts : forall cfg c n e n' a p pe,
    nt_queue n = [] -> fails_now e a -> hears cfg c n e n' ->
    addr_pid (nt_mgr n) !! a = Some p -> p ∉ connected (nt_mgr n) -> pool (nt_mgr n) !! p = Some pe ->
    4 <= duration_since (sys c) (attempt_at (p_state pe)) -> retry_count (p_state pe) < 5 ->
    exists pe', pool (nt_mgr n') !! p = Some pe' /\ retry_count (p_state pe') = retry_count (p_state pe) + 1 /\
      next_retry (p_state pe') = inst c + 5 ^ (retry_count (p_state pe) + 1) * 1000000000.
  Proof.
    intros cfg c n e n' a p pe Hq He Hh Ha Hc Hp Hd Hk.
    assert (reports peer_id e = [ReconnectLater a]) as Hv by (destruct He as (t & [->| ->] & [->| ->]); reflexivity).
    destruct (hears_one _ _ _ _ _ _ Hq Hv Hh) as (-> & _ & _).
    exact (proj1 (C88_failure_charged_to_last_claimant digest peer_id cfg c (nt_mgr n) p a pe Ha Hc Hp Hd Hk)).
  Qed.

  (** An address that cannot be reached at all is given up: the peer it led to
      loses it, and no more than that (no failure is counted); nobody else is
      affected.  The addresses of the bootstraps are kept. *)
  Theorem C103_unreachable_address_dropped : forall cfg c n e n' a p pe,
    nt_queue n = [] -> fails_for_good e a -> hears cfg c n e n' ->
    addr_pid (nt_mgr n) !! a = Some p -> pool (nt_mgr n) !! p = Some pe -> a ∉ boot_addrs (nt_mgr n) ->
    (exists pe', pool (nt_mgr n') !! p = Some pe' /\ p_addrs pe' = p_addrs pe ∖ {[a]} /\
       retry_count (p_state pe') = retry_count (p_state pe) /\ next_retry (p_state pe') = next_retry (p_state pe)) /\
    addr_pid (nt_mgr n') !! a = None /\ unknowns (nt_mgr n') !! a = None /\
    peer_session (nt_mgr n') = peer_session (nt_mgr n) /\ connected (nt_mgr n') = connected (nt_mgr n) /\
    (forall q, q <> p -> same_peer n n' q) /\ nt_out n' = nt_out n.
  Proof.
    intros cfg c n e n' a p pe Hq He Hh Ha Hp Hb.
    assert (reports peer_id e = [UnconnectableAddress a]) as Hv by (destruct He as [->| ->]; reflexivity).
    destruct (hears_one _ _ _ _ _ _ Hq Hv Hh) as (E1 & E2 & _). cbn [PeerManager.process_event fst snd] in E1, E2.
    rewrite app_nil_r in E2. rewrite decide_False in E1 by exact Hb. unfold try_remove_addr in E1.
    change (addr_pid (with_unknowns (delete a (unknowns (nt_mgr n))) (nt_mgr n))) with (addr_pid (nt_mgr n)) in E1. rewrite Ha in E1.
    unfold remove_peer_addr in E1. rewrite E1.
    cbn [modify_peer with_pool with_addr_pid with_unknowns pool addr_pid unknowns peer_session connected].
    split; [rewrite lookup_alter, Hp; eexists; repeat split|].
    split; [apply lookup_delete|]. split; [apply lookup_delete|]. split; [reflexivity|]. split; [reflexivity|].
    split; [|exact E2]. intros q Hne. unfold same_peer. rewrite E1.
    cbn [modify_peer with_pool with_addr_pid with_unknowns pool peer_session connected connecting].
    rewrite lookup_alter_ne by congruence. tauto.
  Qed.
  Theorem C103_unreachable_bootstrap_kept : forall cfg c n e n' a,
    nt_queue n = [] -> fails_for_good e a -> hears cfg c n e n' -> a ∈ boot_addrs (nt_mgr n) ->
    (forall q, same_peer n n' q) /\ addr_pid (nt_mgr n') = addr_pid (nt_mgr n).
  Proof.
    intros cfg c n e n' a Hq He Hh Hb.
    assert (reports peer_id e = [UnconnectableAddress a]) as Hv by (destruct He as [->| ->]; reflexivity).
    destruct (hears_one _ _ _ _ _ _ Hq Hv Hh) as (E1 & E2 & _). cbn [PeerManager.process_event fst snd] in E1.
    rewrite decide_True in E1 by exact Hb. split; [|rewrite E1; reflexivity]. apply same_all; rewrite E1; reflexivity.
  Qed.

  (** The address of a dial that reached a peer already connected becomes one
      of that peer's; a connection another peer repeated changes nothing. *)
  Theorem C103_repeated_connection : forall cfg c n n' m a p pe,
    nt_queue n = [] -> session_peer (nt_mgr n) !! m = Some p -> pool (nt_mgr n) !! p = Some pe ->
    (hears cfg c n (TError (DialerError (RepeatedConn m) a)) n' ->
       (exists pe', pool (nt_mgr n') !! p = Some pe' /\ p_addrs pe' = {[a]} ∪ p_addrs pe) /\
       unknowns (nt_mgr n') !! a = None /\ (forall q, q <> p -> same_peer n n' q) /\ nt_out n' = nt_out n) /\
    (hears cfg c n (TError (ListenError (RepeatedConn m) a)) n' -> nt_mgr n' = nt_mgr n /\ nt_out n' = nt_out n).
  Proof.
    intros cfg c n n' m a p pe Hq Hm Hp. split; intros Hh.
    - destruct (hears_one _ _ _ (TError (DialerError (RepeatedConn m) a)) _ (RepeatedConnection Dialer m a) Hq eq_refl Hh) as (E1 & E2 & _).
      cbn [PeerManager.process_event fst snd] in E1, E2. rewrite app_nil_r in E2.
      unfold add_session_addr in E1. cbv zeta in E1. cbn [with_unknowns session_peer] in E1. rewrite Hm in E1.
      unfold add_peer_addr in E1. cbn [with_unknowns pool] in E1. rewrite Hp in E1.
      rewrite E1. cbn [modify_peer with_pool with_addr_pid with_unknowns pool addr_pid unknowns].
      split; [rewrite lookup_alter, Hp; eexists; split; reflexivity|].
      split; [apply lookup_delete|]. split; [|exact E2]. intros q Hne. unfold same_peer. rewrite E1.
      cbn [modify_peer with_pool with_addr_pid with_unknowns pool peer_session connected connecting].
      rewrite lookup_alter_ne by congruence. tauto.
    - destruct (hears_one _ _ _ (TError (ListenError (RepeatedConn m) a)) _ (RepeatedConnection Listen m a) Hq eq_refl Hh) as (E1 & E2 & _).
      cbn [PeerManager.process_event fst snd] in E1, E2. rewrite app_nil_r in E2. split; assumption.
  Qed.

  (** A peer is dropped for something grave, and nobody else is affected. *)
  Theorem C103_grave_drops_peer : forall cfg c n e n' p,
    nt_queue n = [] -> (forall x, In x (bootstraps cfg) -> peer_id (fst x) <> p) ->
    grave n e p -> hears cfg c n e n' ->
    pool (nt_mgr n') !! p = None /\ peer_session (nt_mgr n') !! p = None /\ p ∉ connected (nt_mgr n') /\
    p ∉ connecting (nt_mgr n') /\
    (forall q, q <> p -> same_peer n n' q) /\ nt_out n' = nt_out n.
  Proof.
    intros cfg c n e n' p Hq Hb He Hh.
    assert (is_bootstrap_peer peer_id cfg p = false) as Hb'.
    { destruct (is_bootstrap_peer peer_id cfg p) eqn:E; [|reflexivity]. apply is_boot_spec in E as (x & Hx & E).
      destruct (Hb x Hx E). }
    assert (nt_mgr n' = cleanly_remove_peer peer_id cfg c p (nt_mgr n) /\ nt_out n' = nt_out n) as [E1 E2].
    { destruct He as [(x & pk & name & Hk & Hpk & ->)|(m & Hm & He)].
      - assert (reports peer_id (TError (ProtocolSelectError x (Some name))) = [RemovePeer p]) as Hv.
        { cbn [reports handle_error]. unfold with_pid. rewrite Hk, Hpk. reflexivity. }
        destruct (hears_one _ _ _ _ _ _ Hq Hv Hh) as (E1 & E2 & _). cbn [PeerManager.process_event fst snd] in E1, E2.
        rewrite app_nil_r in E2. split; assumption.
      - assert (reports peer_id e = [RemovePeerBySession m]) as Hv.
        { destruct He as [->|[->|(x & <- & Hk & ->)]]; [reflexivity|reflexivity|]. cbn [reports handle_error]. unfold with_pid.
          destruct (sx_pk x); [reflexivity|congruence]. }
        destruct (hears_one _ _ _ _ _ _ Hq Hv Hh) as (E1 & E2 & _). cbn [PeerManager.process_event] in E1, E2.
        rewrite Hm in E1, E2. cbn [fst snd] in E1, E2. rewrite app_nil_r in E2. split; assumption. }
    rewrite E1, cleanly_eq, Hb'. cbv zeta. cbn [pool peer_session connected connecting].
    split; [apply lookup_delete|]. split; [apply lookup_delete|]. split; [set_solver|]. split; [set_solver|]. split; [|exact E2].
    intros q Hne. unfold same_peer. rewrite E1, cleanly_eq, Hb'. cbv zeta. cbn [pool peer_session connected connecting].
    rewrite !lookup_delete_ne by congruence. split; [reflexivity|]. split; [reflexivity|]. set_solver.
  Qed.

  (** Something that may pass counts as one failure of the peer (none, if the
      last one was less than four seconds ago): it stays known with its addresses,
      the session recorded for it is closed, and nobody else is affected. *)
  Theorem C103_passing_counts : forall cfg c n e n' p pe,
    nt_queue n = [] -> passing e p -> hears cfg c n e n' ->
    pool (nt_mgr n) !! p = Some pe -> retry_count (p_state pe) < 5 ->
    (exists pe', pool (nt_mgr n') !! p = Some pe' /\ p_addrs pe' = p_addrs pe /\
       (4 <= duration_since (sys c) (attempt_at (p_state pe)) ->
          retry_count (p_state pe') = retry_count (p_state pe) + 1 /\
          next_retry (p_state pe') = inst c + 5 ^ (retry_count (p_state pe) + 1) * 1000000000) /\
       (duration_since (sys c) (attempt_at (p_state pe)) < 4 -> pe' = pe)) /\
    nt_out n' = nt_out n ++ match peer_session (nt_mgr n) !! p with Some m => [Disconnect m] | None => [] end /\
    (forall q, q <> p -> same_peer n n' q).
  Proof.
    intros cfg c n e n' p pe Hq He Hh Hp Hk.
    assert (reports peer_id e = [RetryPeerLater p]) as Hv.
    { destruct He as [->|[->|(x & pk & Hpk & <- & [->|[->| ->]])]]; try reflexivity; cbn [reports handle_error];
        unfold with_pid; rewrite Hpk; reflexivity. }
    destruct (hears_one _ _ _ _ _ _ Hq Hv Hh) as (E1 & E2 & _). cbn [PeerManager.process_event fst snd] in E1, E2.
    assert (pool (increase_retry_count c p (nt_mgr n)) !! p = Some (increase_retry c pe)) as E.
    { cbn [increase_retry_count modify_peer with_pool pool]. rewrite lookup_alter, Hp. reflexivity. }
    assert (retry_count (p_state (increase_retry c pe)) <= 5 /\ p_addrs (increase_retry c pe) = p_addrs pe) as [Hle Had].
    { unfold increase_retry. cbv zeta. destruct (_ <? _); [split; [lia|reflexivity]|]. split; [|reflexivity].
      cbn [p_state with_state retry_count]. rewrite N.mod_small; [lia|]. apply N.lt_trans with 6; [lia|reflexivity]. }
    assert (increase_peer_retry peer_id cfg c p (nt_mgr n) = increase_retry_count c p (nt_mgr n)) as Ei.
    { unfold increase_peer_retry. cbv zeta. unfold reach_max_retry. rewrite E.
      rewrite (proj2 (N.leb_gt _ _)); [reflexivity|]. unfold MAX_RETRY_COUNT. lia. }
    rewrite Ei in E1, E2. rewrite E1. split; [|split].
    - exists (increase_retry c pe). split; [exact E|]. split; [exact Had|]. split.
      + intros Hd. destruct (counted_failure c pe Hd) as (R1 & R2 & _); [lia|]. split; assumption.
      + intros Hd. apply not_counted, Hd.
    - rewrite E2. reflexivity.
    - intros q Hne. unfold same_peer. rewrite E1. cbn [increase_retry_count modify_peer with_pool pool peer_session connected connecting].
      rewrite lookup_alter_ne by congruence. tauto.
  Qed.

  (** A ping answered or received clears the failures of that peer, nothing else. *)
  Theorem C103_ping_clears : forall cfg c n e n' p pe,
    nt_queue n = [] -> e = TPing (Ping p) \/ e = TPing (Pong p) -> hears cfg c n e n' ->
    pool (nt_mgr n) !! p = Some pe ->
    (exists pe', pool (nt_mgr n') !! p = Some pe' /\ p_addrs pe' = p_addrs pe /\ retry_count (p_state pe') = 0) /\
    peer_session (nt_mgr n') = peer_session (nt_mgr n) /\ connected (nt_mgr n') = connected (nt_mgr n) /\
    nt_out n' = nt_out n /\ (forall q, q <> p -> same_peer n n' q).
  Proof.
    intros cfg c n e n' p pe Hq He Hh Hp.
    assert (reports peer_id e = [PeerAlive p]) as Hv by (destruct He as [->| ->]; reflexivity).
    destruct (hears_one _ _ _ _ _ _ Hq Hv Hh) as (E1 & E2 & _). cbn [PeerManager.process_event fst snd] in E1, E2.
    rewrite app_nil_r in E2. rewrite E1. unfold i_reset_retry.
    cbn [modify_peer with_pool pool peer_session connected]. split; [rewrite lookup_alter, Hp; eexists; repeat split|].
    split; [reflexivity|]. split; [reflexivity|]. split; [exact E2|].
    intros q Hne. unfold same_peer. rewrite E1. unfold i_reset_retry. cbn [modify_peer with_pool pool peer_session connected connecting].
    rewrite lookup_alter_ne by congruence. tauto.
  Qed.

  (** The addresses a peer announces for itself become its own, and nobody
      else's record changes; those of an unknown peer change nothing. *)
  Theorem C103_announced_addresses : forall cfg c n n' p l,
    nt_queue n = [] -> hears cfg c n (TIdent (AddRemoteListenAddrs p l)) n' ->
    (forall pe, pool (nt_mgr n) !! p = Some pe ->
       exists pe', pool (nt_mgr n') !! p = Some pe' /\ p_addrs pe' = list_to_set l ∪ p_addrs pe /\
         retry_count (p_state pe') = retry_count (p_state pe)) /\
    (pool (nt_mgr n) !! p = None -> pool (nt_mgr n') !! p = None) /\
    (forall q, q <> p -> same_peer n n' q) /\ nt_out n' = nt_out n.
  Proof.
    intros cfg c n n' p l Hq Hh.
    destruct (hears_one _ _ _ (TIdent (AddRemoteListenAddrs p l)) _ (IdentifiedAddrs p l) Hq eq_refl Hh) as (E1 & E2 & _). cbn [PeerManager.process_event fst snd] in E1, E2.
    rewrite app_nil_r in E2.
    assert (forall l s, let s' := fold_left (fun s a => add_peer_addr p a s) l s in
      (forall pe, pool s !! p = Some pe -> exists pe', pool s' !! p = Some pe' /\ p_addrs pe' = list_to_set l ∪ p_addrs pe /\
         retry_count (p_state pe') = retry_count (p_state pe)) /\
      (pool s !! p = None -> pool s' !! p = None)) as Hf.
    { clear. cbv zeta. induction l as [|a l IH] using rev_ind; intros s; cbn [fold_left list_to_set].
      - split; [|auto]. intros pe Hp. exists pe. split; [exact Hp|]. split; [|reflexivity]. rewrite (left_id_L ∅ (∪)). reflexivity.
      - rewrite fold_left_app. cbn [fold_left]. destruct (IH s) as [H1 H2]. set (s1 := fold_left (fun s a => add_peer_addr p a s) l s) in *.
        unfold add_peer_addr. split.
        + intros pe Hp. destruct (H1 pe Hp) as (pe' & Hp' & Ha & Hr). rewrite Hp'. cbn [modify_peer with_pool with_addr_pid pool].
          rewrite lookup_alter, Hp'. eexists. split; [reflexivity|]. split; [|exact Hr].
          change (p_addrs (add_addr a pe')) with ({[a]} ∪ p_addrs pe'). rewrite Ha, list_to_set_app_L. set_solver.
        + intros Hp. rewrite (H2 Hp). apply H2, Hp. }
    destruct (Hf l (nt_mgr n)) as [H1 H2]. rewrite E1. split; [exact H1|]. split; [exact H2|]. split; [|exact E2].
    intros q Hne. unfold same_peer. rewrite E1. destruct (identified_frame p l (nt_mgr n)) as (F1 & _).
    rewrite (F1 q Hne). destruct (fold_sess (fun s a => add_peer_addr p a s) l (nt_mgr n) (fun s a => add_peer_addr_sess p a s)) as [-> _].
    destruct (fold_conn (fun s a => add_peer_addr p a s) l (nt_mgr n) (fun s a => add_addr_conn p a s)) as [-> ->]. tauto.
  Qed.

  (** An address heard of from others: if it leads to a connected peer it
      becomes one of its addresses; if to nobody, it waits to be tried; else
      nothing happens. *)
  Theorem C103_discovered_address : forall cfg c n n' a,
    nt_queue n = [] -> hears cfg c n (TDisc (AddNewAddr a)) n' \/ hears cfg c n (TDisc (AddNewAddrs [a])) n' ->
    nt_out n' = nt_out n /\
    match match_pid a (nt_mgr n) with
    | None => is_Some (unknowns (nt_mgr n') !! a) /\ forall q, same_peer n n' q
    | Some p =>
        (forall q, q <> p -> same_peer n n' q) /\
        (p ∈ connected (nt_mgr n) -> forall pe, pool (nt_mgr n) !! p = Some pe ->
           exists pe', pool (nt_mgr n') !! p = Some pe' /\ p_addrs pe' = {[a]} ∪ p_addrs pe) /\
        (p ∉ connected (nt_mgr n) -> nt_mgr n' = nt_mgr n)
    end.
  Proof.
    intros cfg c n n' a Hq Hor.
    assert (nt_mgr n' = identify_addr a (nt_mgr n) /\ nt_out n' = nt_out n) as [E1 E2].
    { destruct Hor as [Hh|Hh].
      - destruct (hears_one _ _ _ (TDisc (AddNewAddr a)) _ (DiscoverAddr a) Hq eq_refl Hh) as (E1 & E2 & _). cbn in E1, E2. rewrite app_nil_r in E2. auto.
      - destruct (hears_one _ _ _ (TDisc (AddNewAddrs [a])) _ (DiscoverMultiAddrs [a]) Hq eq_refl Hh) as (E1 & E2 & _). cbn in E1, E2. rewrite app_nil_r in E2. auto. }
    split; [exact E2|]. unfold identify_addr in E1. destruct (match_pid a (nt_mgr n)) as [p|] eqn:Em.
    - unfold peer_connected in E1. destruct (bool_decide_reflect (p ∈ connected (nt_mgr n))) as [Hc|Hc].
      + split; [|split; [|intros H; destruct (H Hc)]].
        * intros q Hne. unfold same_peer. rewrite E1. destruct (add_peer_addr_sess p a (nt_mgr n)) as [-> _].
          destruct (add_addr_conn p a (nt_mgr n)) as [-> ->]. unfold add_peer_addr.
          destruct (pool (nt_mgr n) !! p); [|tauto]. cbn [modify_peer with_pool with_addr_pid pool]. rewrite lookup_alter_ne by congruence. tauto.
        * intros _ pe Hp. rewrite E1. unfold add_peer_addr. rewrite Hp. cbn [modify_peer with_pool with_addr_pid pool].
          rewrite lookup_alter, Hp. eexists. split; reflexivity.
      + split; [|split; [intros H; destruct (Hc H)|intros _; exact E1]]. intros q _. unfold same_peer. rewrite E1. tauto.
    - destruct (unknowns (nt_mgr n) !! a) as [u|] eqn:Eu.
      + split; [rewrite E1, Eu; eauto|]. apply same_all; rewrite E1; reflexivity.
      + split; [rewrite E1; cbn [with_unknowns unknowns]; rewrite lookup_insert; eauto|]. apply same_all; rewrite E1; reflexivity.
  Qed.

  (** What the transport reports of nobody in particular, and what it reports
      of a session without a key, changes nothing. *)
  Theorem C103_of_nobody : forall cfg c n e n',
    nt_queue n = [] -> of_nobody e -> hears cfg c n e n' -> nt_mgr n' = nt_mgr n /\ nt_out n' = nt_out n.
  Proof.
    intros cfg c n e n' Hq He Hh.
    assert (reports peer_id e = []) as Hv.
    { destruct He as [->|[->|[(p & a & ->)|[(p & ->)|(x & Hx & He)]]]]; try reflexivity.
      destruct He as [->|[->|[->|[([nm|] & ->)|[->| ->]]]]]; cbn [reports handle_error handle_event]; unfold with_pid; rewrite Hx; reflexivity. }
    destruct (hears_none _ _ _ _ _ Hq Hv Hh) as (E1 & E2 & _). auto.
  Qed.
End Blame.

Print Assumptions C103_own_address.
Print Assumptions C103_own_address_gone.
Print Assumptions C103_dial_may_succeed_later.
Print Assumptions C103_dial_counts.
Print Assumptions C103_unreachable_address_dropped.
Print Assumptions C103_unreachable_bootstrap_kept.
Print Assumptions C103_repeated_connection.
Print Assumptions C103_grave_drops_peer.
Print Assumptions C103_passing_counts.
Print Assumptions C103_ping_clears.
Print Assumptions C103_announced_addresses.
Print Assumptions C103_discovered_address.
Print Assumptions C103_of_nobody.
