(** * Concrete histories meeting the hypotheses of PropPeers.v *)
From Coq Require Import List Bool NArith Lia.
From stdpp Require Import base decidable list gmap sets fin_sets.
From Verif Require Import Base Types Keccak PeerManager PmSpec PmFacts PmMore PmPeers PmProps PmProps2 PmProps3 PropPeers.
Import ListNotations.
Local Open Scope N_scope.

(** Peer ids are the keys themselves; our key is 01, the bootstrap 02. *)
Definition idx (pk : pubkey) : pid := pk.
Definition key (b : byte) : pubkey := [x02; b].
Definition adr (n : N) : maddr := [Ip4 [x7f; x00; x00; x01]; Tcp n].
Definition xcfg : config := Config (key x01) [(key x02, adr 2)] 2.
Definition at_ (t : N) : clock := Clock t (t * 1000000000).
Definition xstart : pm := start keccak idx xcfg (at_ 1000) [].
Notation xact := (act keccak idx xcfg).
Notation xreach := (reach keccak idx xcfg).
Definition xrun (s : pm) (h : list (clock * action)) : pm := fold_left (fun s x => fst (xact (fst x) s (snd x))) h s.

Lemma xrun_reach h s0 : (forall c a, In (c, a) h -> exists e, a = AEvent e) -> xreach s0 h (xrun s0 h).
Proof.
  induction h as [|[c a] h IH] using rev_ind; intros H; [apply reach_nil|].
  unfold xrun. rewrite fold_left_app. cbn [fold_left fst snd]. apply reach_snoc.
  - apply IH. intros c' a' Hin. apply (H c'). apply in_or_app. left. exact Hin.
  - destruct (H c a) as [e ->]; [apply in_or_app; right; left; reflexivity|exact I].
Qed.
Ltac only_events := intros ? ? Hin; cbn in Hin; repeat (destruct Hin as [Hin|Hin]; [injection Hin as <- <-; eexists; reflexivity|]); destruct Hin.

(** Peer 3 connects twice (sessions 7 and 8), peer 4 once. *)
Definition xh : list (clock * action) :=
  [ (at_ 1001, AEvent (AttachPeerSession (key x03) 7 (adr 3) Outbound));
    (at_ 1002, AEvent (AttachPeerSession (key x04) 9 (adr 4) Inbound));
    (at_ 1003, AEvent (AttachPeerSession (key x03) 8 (adr 33) Outbound)) ].
Example xh_reach : xreach xstart xh (xrun xstart xh).
Proof. apply xrun_reach. only_events. Qed.

Ltac keys_distinct := let H1 := fresh in let H2 := fresh in
  intros k1 k2 H1 H2 E; vm_compute in H1, H2; repeat destruct H1 as [<-|H1]; repeat destruct H2 as [<-|H2];
  try destruct H1; try destruct H2; try reflexivity; vm_compute in E; discriminate E.
Example xh_ids : distinct_ids idx (all_keys xcfg [] xh).
Proof. intros k1 k2 _ _ E. exact E. Qed.
Example x_ids : distinct_ids idx (start_keys xcfg []).
Proof. intros k1 k2 _ _ E. exact E. Qed.
Example xh_users : distinct_users keccak (all_keys xcfg [] xh).
Proof.
  intros k1 k2 H1 H2 E.
  assert (forall k, In k (all_keys xcfg [] xh) -> k = key x01 \/ k = key x02 \/ k = key x03 \/ k = key x04) as Hk.
  { intros k H. cbn in H. repeat (destruct H as [<-|H]; [auto|]). destruct H. }
  apply (f_equal ua) in E.
  destruct (Hk _ H1) as [->|[->|[->| ->]]], (Hk _ H2) as [->|[->|[->| ->]]]; try reflexivity;
    exfalso; vm_compute in E; discriminate E.
Qed.
Example xh_sessions : sessions_distinct xh.
Proof. unfold sessions_distinct. vm_compute. repeat constructor; set_solver. Qed.

(** C74: the session recorded for peer 3 is the second. *)
Example xh_session3 : peer_session (xrun xstart xh) !! key x03 = Some 8.
Proof. vm_compute. reflexivity. Qed.
Example xh_holds3 : holds_session idx xh (key x03) 8.
Proof.
  exists (take 2 xh), (at_ 1003), (AEvent (AttachPeerSession (key x03) 8 (adr 33) Outbound)), []. split; [reflexivity|]. split; [eexists _, _; reflexivity|]. intros c a [].
Qed.
(** The close of session 7 arrives late, and the manager forgets session 8. *)
Example xh_late_close :
  peer_session (xrun xstart (xh ++ [(at_ 1004, AEvent (DetachPeerSession (key x03) 7 Outbound))])) !! key x03 = None.
Proof. vm_compute. reflexivity. Qed.

(** C75: a message to peers 3, 4, the bootstrap (not connected) and a
    stranger. *)
Definition user_of (b : byte) : user_address := pubkey_user keccak (key b).
Example xh_route :
  snd (process_event keccak idx xcfg (at_ 1005) (xrun xstart xh)
        (RouteMultiUsersMessage [user_of x04; user_of x02; user_of x03; user_of x05] [] High)) =
  ([SendMsg [9; 8] [] High; Connect [adr 2]], Some [user_of x02; user_of x05]).
Proof. vm_compute. reflexivity. Qed.

(** C76: the bootstrap is being dialled when the manager starts; its dial times
    out five times, the peer is still marked as being dialled, and its
    discovered address is forgotten at once. *)
Definition xtimeouts : list (clock * action) :=
  [ (at_ 1010, AEvent (ReconnectLater (adr 2))); (at_ 1100, AEvent (ReconnectLater (adr 2)));
    (at_ 2000, AEvent (UnconnectableAddress (adr 2))); (at_ 999999, AEvent (DiscoverAddr (adr 2))) ].
Example x_connecting : key x02 ∈ connecting xstart.
Proof. apply (bool_decide_unpack _). vm_compute. exact I. Qed.
Example x_timeouts_reach : xreach xstart xtimeouts (xrun xstart xtimeouts).
Proof. apply xrun_reach. only_events. Qed.
Example x_timeouts_no_drop : forall c a, In (c, a) xtimeouts -> ~ drops idx ([] ++ xtimeouts) (key x02) a.
Proof.
  intros c a Hin. cbn in Hin.
  assert (exists e, a = AEvent e /\ match e with ReconnectLater _ | UnconnectableAddress _ | DiscoverAddr _ => True | _ => False end) as (e & -> & He).
  { repeat (destruct Hin as [Hin|Hin]; [injection Hin as <- <-; eexists; split; [reflexivity|exact I]|]). destruct Hin. }
  intros [(pk & n & (ad & ty & E) & _)|[(n & ty & E)|[E|[E|(n & E & _)]]]]; injection E as ->; exact He.
Qed.
Example x_timeouts_stuck : key x02 ∈ connecting (xrun xstart xtimeouts).
Proof.
  assert (option_map (fun pe => retry_count (p_state pe)) (pool xstart !! key x02) = Some 0) as E0 by (vm_compute; reflexivity).
  destruct (pool xstart !! key x02) as [pe|] eqn:E; [|discriminate E0]. cbn [option_map] in E0. injection E0 as E0.
  refine (proj1 (C76_dial_never_retried_refuted keccak idx xcfg (at_ 1000) [] [] xstart xtimeouts _ (key x02) pe
    (reach_nil _ _ _ _) x_connecting E x_timeouts_reach x_timeouts_no_drop _)).
  rewrite E0. change (0 + timeouts xtimeouts) with 2. discriminate.
Qed.

(** C78: with peers 3 and 4 connected and two slots the routine dials nobody;
    before, the start-up dial of the bootstrap leaves one slot. *)
Example x_routine_full : routine_ok xcfg (at_ 1010) (xrun xstart xh) [] [].
Proof.
  assert (candidates (at_ 1010) (xrun xstart xh) = [] /\ fresh_unknowns (xrun xstart xh) = []) as [E1 E2] by (vm_compute; auto).
  unfold routine_ok. rewrite E1, E2. split; apply nil_choice.
Qed.
Example x_never_us : never_about_us idx xcfg xh.
Proof.
  intros c a Hin. cbn in Hin. repeat (destruct Hin as [Hin|Hin]; [injection Hin as <- <-; cbn; discriminate|]). destruct Hin.
Qed.
Definition xdisc : list (clock * action) := [(at_ 1001, AEvent (DiscoverAddr (adr 50))); (at_ 1001, AEvent (DiscoverAddr (adr 51)))].
Example x_routine_one : routine_ok xcfg (at_ 1010) (xrun xstart xdisc) [] [adr 50].
Proof.
  unfold routine_ok.
  assert (candidates (at_ 1010) (xrun xstart xdisc) = [] /\ free_slots xcfg (xrun xstart xdisc) = 1) as [E1 E2] by (vm_compute; auto).
  rewrite E1, E2. split; [apply nil_choice|]. apply one_choice, fresh_spec. eexists. split; [vm_compute; reflexivity|reflexivity].
Qed.

(** C83, C84: six failures of connected peer 3, ten seconds apart: five
    disconnections, then nothing. *)
Definition xfail (t : N) : clock * action := (at_ t, AEvent (RetryPeerLater (key x03))).
Definition xfails : list (clock * action) := xh ++ map xfail [1010; 1020; 1030; 1040; 1050].
Example x_fails_reach : xreach xstart xfails (xrun xstart xfails).
Proof. apply xrun_reach. only_events. Qed.
Example x_five : option_map (fun pe => retry_count (p_state pe)) (pool (xrun xstart xfails) !! key x03) = Some 5 /\
  option_map (fun pe => next_retry (p_state pe)) (pool (xrun xstart xfails) !! key x03) = Some ((1050 + 3125) * 1000000000) /\
  peer_session (xrun xstart xfails) !! key x03 = Some 8.
Proof. vm_compute. auto. Qed.
Example x_sixth :
  let r := process_event keccak idx xcfg (at_ 1060) (xrun xstart xfails) (RetryPeerLater (key x03)) in
  fst (snd r) = [] /\ pool (fst r) !! key x03 = None /\ peer_session (fst r) !! key x03 = None.
Proof. vm_compute. auto. Qed.
Example x_fourth :
  fst (snd (process_event keccak idx xcfg (at_ 1020) (xrun xstart (xh ++ [xfail 1010])) (RetryPeerLater (key x03)))) = [Disconnect 8].
Proof. vm_compute. reflexivity. Qed.
(** A bootstrap, five failures and a sixth. *)
Definition xbfails : list (clock * action) :=
  map (fun t => (at_ t, AEvent (RetryPeerLater (key x02)))) [1010; 1020; 1030; 1040; 1050].
Example x_boot_five : option_map (fun pe => retry_count (p_state pe)) (pool (xrun xstart xbfails) !! key x02) = Some 5.
Proof. vm_compute. reflexivity. Qed.
Example x_boot_sixth :
  option_map (fun pe => (retry_count (p_state pe), next_retry (p_state pe)))
    (pool (fst (process_event keccak idx xcfg (at_ 1060) (xrun xstart xbfails) (RetryPeerLater (key x02)))) !! key x02)
  = Some (0, (1060 + 15625) * 1000000000).
Proof. vm_compute. reflexivity. Qed.
(** and it is a candidate again once the back-off has passed *)
Example x_boot_candidate :
  let s := fst (process_event keccak idx xcfg (at_ 1060) (xrun xstart xbfails) (RetryPeerLater (key x02))) in
  candidates (at_ (1060 + 15625)) s = [] /\ candidates (at_ (1060 + 15626)) s = [key x02].
Proof. vm_compute. auto. Qed.
