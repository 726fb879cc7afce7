(** * C79: commands to the transport; C75: what a multi-user send returns *)
From Coq Require Import List Bool NArith Lia Permutation.
From stdpp Require Import base decidable list gmap.
From Verif Require Import Base Types Keccak PeerManager PmSpec PmFacts PmMore PmPeers PmProps PmProps2 PmProps3 PropPeers PeerExamples Connection ConnFacts.
Import ListNotations.

Lemma progress_perm evs pend inb acc : progress evs pend inb acc ->
  Permutation (acc ++ concat (map cmds_of (pend ++ inb))) (concat (map cmds_of evs)).
Proof.
  assert (forall groups done, Forall2 (fun g e => Permutation g (cmds_of e)) groups done ->
    Permutation (concat groups) (concat (map cmds_of done))) as Hg.
  { induction 1 as [|g e gs es Hp _ IH]; cbn; [reflexivity|]. rewrite Hp, IH. reflexivity. }
  intros [done groups inb0 HF ->|done groups e part p inb0 HF -> Hp]; rewrite ?map_app, ?concat_app; rewrite (Hg _ _ HF).
  - reflexivity.
  - cbn. rewrite <- Hp. rewrite <- !app_assoc. reflexivity.
Qed.

(** Everything but dials. *)
Definition not_dials (l : list tcmd) : list tcmd := flat_map (fun c => match c with Dial _ => [] | _ => [c] end) l.
Lemma not_dials_app a b : not_dials (a ++ b) = not_dials a ++ not_dials b.
Proof. apply flat_map_app. Qed.
Lemma dials_none l : not_dials (map Dial l) = [].
Proof. induction l as [|a l IH]; [reflexivity|exact IH]. Qed.
Lemma perm_dials g l : Permutation g (map Dial l) -> not_dials g = [].
Proof.
  intros H. apply Permutation_map_inv in H as (l' & -> & _). apply dials_none.
Qed.
Lemma perm_not_dials g e : Permutation g (cmds_of e) -> not_dials g = not_dials (cmds_of e).
Proof.
  intros H. destruct e as [addrs|n|tar msg []]; cbn [cmds_of] in *.
  - rewrite dials_none. eapply perm_dials, H.
  - apply Permutation_sym, Permutation_length_1_inv in H. subst. reflexivity.
  - apply Permutation_sym, Permutation_length_1_inv in H. subst. reflexivity.
  - apply Permutation_sym, Permutation_length_1_inv in H. subst. reflexivity.
Qed.

Lemma progress_order evs pend inb acc : progress evs pend inb acc ->
  not_dials acc ++ not_dials (concat (map cmds_of (pend ++ inb))) = not_dials (concat (map cmds_of evs)).
Proof.
  assert (forall groups done, Forall2 (fun g e => Permutation g (cmds_of e)) groups done ->
    not_dials (concat groups) = not_dials (concat (map cmds_of done))) as Hg.
  { induction 1 as [|g e gs es Hp _ IH]; cbn [concat map]; [reflexivity|]. rewrite !not_dials_app, IH, (perm_not_dials _ _ Hp). reflexivity. }
  intros [done groups inb0 HF ->|done groups e part p inb0 HF -> Hp].
  - cbn [app]. rewrite map_app, concat_app, not_dials_app, (Hg _ _ HF). reflexivity.
  - change ([p] ++ inb0) with (p :: inb0). rewrite map_app, concat_app. cbn [map concat].
    rewrite !not_dials_app, (Hg _ _ HF), <- app_assoc. f_equal. rewrite app_assoc. f_equal.
    rewrite <- not_dials_app. apply perm_not_dials, Hp.
Qed.

Section Conn.
  Context (tr : nat -> tcmd -> tresult).

  (** For every transport and every schedule of submitted events and polls in
      which the transport never says it is closed: the submitted events are
      handed over one after the other, completely, in order (the dials of one
      event in any order); the next one may be handed over in part, what is left
      of it being pending; the others wait in the channel. *)
  Theorem C79_handed_or_kept : forall sched, let s := c_run tr sched in
    never_closed (log s) -> progress (submitted sched) (pending s) (inbox s) (accepted (log s)).
  Proof. intros sched s H. exact (proj2 (run_ok tr sched) H). Qed.

  (** So no command is lost or duplicated. *)
  Theorem C79_nothing_lost : forall sched, let s := c_run tr sched in never_closed (log s) ->
    Permutation (accepted (log s) ++ concat (map cmds_of (pending s ++ inbox s)))
                (concat (map cmds_of (submitted sched))).
  Proof. intros sched s H. apply progress_perm, C79_handed_or_kept, H. Qed.

  (** And messages and disconnections are handed over in the order submitted. *)
  Theorem C79_order_kept : forall sched, let s := c_run tr sched in never_closed (log s) ->
    not_dials (accepted (log s)) ++ not_dials (concat (map cmds_of (pending s ++ inbox s))) =
    not_dials (concat (map cmds_of (submitted sched))).
  Proof. intros sched s H. apply progress_order, C79_handed_or_kept, H. Qed.

  (** At most one event is pending, whatever the transport answers. *)
  Theorem C79_one_pending : forall sched, (length (pending (c_run tr sched)) <= 1)%nat.
  Proof. intros sched. exact (proj1 (run_ok tr sched)). Qed.

  (** Once the transport accepts, one poll hands over everything. *)
  Theorem C79_drains : forall sched,
    (forall m c, (length (log (c_run tr sched)) <= m)%nat -> tr m c = None) ->
    let s := c_run tr (sched ++ [Poll]) in
    pending s = [] /\ inbox s = [] /\
    (never_closed (log s) -> Permutation (accepted (log s)) (concat (map cmds_of (submitted sched)))).
  Proof.
    intros sched H s.
    assert (s = c_poll tr (c_run tr sched)) as E by (unfold s, c_run; rewrite fold_left_app; reflexivity).
    destruct (poll_all_ok tr (c_run tr sched) H) as [H1 H2]. rewrite <- E in H1, H2.
    split; [exact H1|]. split; [exact H2|]. intros Hn.
    pose proof (C79_nothing_lost (sched ++ [Poll]) Hn) as Hp. fold s in Hp. rewrite H1, H2 in Hp. cbn in Hp.
    rewrite app_nil_r in Hp. rewrite submitted_app in Hp. cbn [submitted flat_map app] in Hp. rewrite app_nil_r in Hp. exact Hp.
  Qed.

  (** What the log says, the transport answered. *)
  Definition faithful (l : list (tcmd * tresult)) : Prop := forall c x, In (c, x) l -> exists n, tr n c = x.
  Lemma try_faithful c l : faithful l -> faithful (snd (try_do tr c l)).
  Proof.
    intros H c' x Hin. cbn in Hin. apply in_app_or in Hin as [Hin|[E|[]]]; [exact (H _ _ Hin)|].
    injection E as <- <-. eauto.
  Qed.
  Lemma dials_faithful addrs : forall kept l, faithful l -> faithful (snd (dial_all tr addrs kept l)).
  Proof.
    induction addrs as [|a rest IH]; intros kept l H; cbn [dial_all]; [exact H|].
    pose proof (try_faithful (Dial a) l H) as Ht. destruct (try_do tr (Dial a) l) as [[[]|] l1]; cbn [snd] in Ht; cbv beta iota;
      [apply IH, Ht|apply IH, Ht|exact Ht].
  Qed.
  Lemma process_faithful e s : faithful (log s) -> faithful (log (c_process_event tr e s)).
  Proof.
    intros H. destruct e as [addrs|n|tar msg pri]; cbn [c_process_event].
    - pose proof (dials_faithful addrs [] _ H) as Hd. destruct (dial_all tr addrs [] (log s)). exact Hd.
    - pose proof (try_faithful (Close n) _ H) as Hd. destruct (try_do tr (Close n) (log s)). exact Hd.
    - pose proof (try_faithful (send_cmd tar msg pri) _ H) as Hd. destruct (try_do tr (send_cmd tar msg pri) (log s)). exact Hd.
  Qed.
  Lemma receive_faithful evs : forall s, faithful (log s) -> faithful (log (receive tr evs s)).
  Proof.
    induction evs as [|e rest IH]; intros s H; cbn [receive]; [exact H|].
    destruct (pending s); [|exact H]. apply IH, process_faithful, H.
  Qed.
  Lemma run_faithful sched : faithful (log (c_run tr sched)).
  Proof.
    induction sched as [|o sched IH] using rev_ind; [intros c x []|].
    unfold c_run. rewrite fold_left_app. cbn [fold_left]. fold (c_run tr sched). destruct o as [e|]; [exact IH|].
    cbn [c_step]. unfold c_poll. cbv zeta. apply receive_faithful.
    generalize (pending (c_run tr sched)). intros l.
    assert (forall l s, faithful (log s) -> faithful (log (fold_left (fun s e => c_process_event tr e s) l s))) as Hf.
    { clear. induction l as [|e l IH]; intros s H; cbn [fold_left]; [exact H|]. apply IH, process_faithful, H. }
    apply Hf. exact IH.
  Qed.

  (** The price: a command the transport keeps refusing for a reason other than
      being closed stops every later event for good, however often the service
      is polled. *)
  Theorem C79_refused_command_blocks : forall sched done e rest cmd,
    submitted sched = done ++ e :: rest -> In cmd (cmds_of e) ->
    (forall n, tr n cmd <> None) -> never_closed (log (c_run tr sched)) ->
    forall c, In c (accepted (log (c_run tr sched))) -> In c (concat (map cmds_of (done ++ [e]))).
  Proof.
    intros sched done e rest cmd Hs Hin Href Hnc c Hc.
    assert (~ In cmd (accepted (log (c_run tr sched)))) as Hno.
    { intros Ha. unfold accepted in Ha. apply in_flat_map in Ha as ([c' x] & Hl & Hx). cbn in Hx.
      destruct x as [|]; [destruct Hx|]. destruct Hx as [<-|[]]. destruct (run_faithful sched _ _ Hl) as [n Hn]. exact (Href n Hn). }
    assert (forall groups ds, Forall2 (fun g e => Permutation g (cmds_of e)) groups ds ->
      Permutation (concat groups) (concat (map cmds_of ds))) as Hg.
    { induction 1 as [|g e1 gs es Hp _ IH]; cbn; [reflexivity|]. rewrite Hp, IH. reflexivity. }
    pose proof (C79_handed_or_kept sched Hnc) as Hpr. cbv zeta in Hpr. rewrite Hs in Hpr.
    inversion Hpr as [done' groups inb HF Hev E1 E2 E3|done' groups e' part p inb HF Hev Hp E1 E2 E3]; rewrite <- E3 in Hc, Hno.
    - apply app_eq_inv in Hev as [(k & -> & Hev)|(k & -> & Hev)].
      + rewrite (Hg _ _ HF) in Hc. rewrite map_app, concat_app. apply in_or_app. left. rewrite map_app, concat_app. apply in_or_app. left. exact Hc.
      + destruct k as [|e1 k]; [cbn in Hev|]; [|cbn in Hev; injection Hev as -> Hev].
        * rewrite app_nil_r in HF. rewrite (Hg _ _ HF) in Hc. rewrite map_app, concat_app. apply in_or_app. left. exact Hc.
        * exfalso. apply Hno. rewrite (Hg _ _ HF), map_app, concat_app. apply in_or_app. right. cbn. apply in_or_app. left. exact Hin.
    - assert (In c (concat (map cmds_of done')) \/ In c (cmds_of e')) as Hc'.
      { apply in_app_or in Hc as [Hc|Hc]; [left; rewrite <- (Hg _ _ HF); exact Hc|right].
        eapply Permutation_in; [exact Hp|]. apply in_or_app. left. exact Hc. }
      apply app_eq_inv in Hev as [(k & -> & Hev)|(k & -> & Hev)].
      + rewrite map_app, concat_app. apply in_or_app.
        destruct k as [|e1 k]; cbn in Hev; injection Hev as <- Hev.
        * rewrite app_nil_r. destruct Hc' as [Hc'|Hc']; [left; exact Hc'|right]. cbn. rewrite app_nil_r. exact Hc'.
        * left. rewrite map_app, concat_app. apply in_or_app. destruct Hc' as [Hc'|Hc']; [left; exact Hc'|right].
          cbn. apply in_or_app. left. exact Hc'.
      + destruct k as [|e1 k]; cbn in Hev; injection Hev as -> Hev.
        * rewrite app_nil_r in Hc'. rewrite map_app, concat_app. apply in_or_app. destruct Hc' as [Hc'|Hc']; [left; exact Hc'|right].
          cbn. rewrite app_nil_r. exact Hc'.
        * exfalso. apply Hno. apply in_or_app. left. rewrite (Hg _ _ HF), map_app, concat_app. apply in_or_app. right. cbn.
          apply in_or_app. left. exact Hin.
  Qed.

  (** A closed transport: the event is dropped, nothing is kept for later. *)
  Theorem C79_closed_drops : forall e s, (forall m c, (length (log s) <= m)%nat -> tr m c = Some (IoError BrokenPipe)) ->
    pending (c_process_event tr e s) = pending s.
  Proof.
    intros e s H.
    assert (forall c, try_do tr c (log s) = (None, log s ++ [(c, Some (IoError BrokenPipe))])) as Ht.
    { intros c. unfold try_do. rewrite H by apply le_n. reflexivity. }
    destruct e as [[|a addrs]|n|tar msg pri]; cbn [c_process_event dial_all]; rewrite ?Ht; reflexivity.
  Qed.
End Conn.

(** ** C75: the result of a multi-user send *)

(** It succeeds iff every addressed user was sent to; otherwise its error
    lists exactly the users that were not. *)
Theorem C75_result : forall digest peer_id cfg c0 saved h s c users msg pri,
  distinct_ids peer_id (all_keys cfg saved h) -> distinct_users digest (all_keys cfg saved h) ->
  reach digest peer_id cfg (start digest peer_id cfg c0 saved) h s ->
  exists (f : user_address -> option sid) addrs,
    fst (snd (process_event digest peer_id cfg c s (RouteMultiUsersMessage users msg pri))) =
      [SendMsg (omap f users) msg pri; Connect addrs] /\
    (forall pk n, holds_session peer_id h pk n -> f (pubkey_user digest pk) = Some n) /\
    match users_send (snd (snd (process_event digest peer_id cfg c s (RouteMultiUsersMessage users msg pri)))) with
    | Ok _ => forall u, In u users -> exists n, f u = Some n
    | Err (NPartialRoute miss) => miss <> [] /\ forall u, In u miss <-> In u users /\ f u = None
    | _ => False
    end.
Proof.
  intros digest peer_id cfg c0 saved h s c users msg pri Hid Hus Hr.
  destruct (C75_sent_or_missed digest peer_id cfg c0 saved h s c users msg pri Hid Hus Hr) as (f & addrs & missed & E & Hm & _ & Hh).
  exists f, addrs. rewrite E. cbn [fst snd]. split; [reflexivity|]. split; [exact Hh|].
  assert (forall u, In u missed <-> In u users /\ f u = None) as Hin.
  { intros u. rewrite <- !elem_of_list_In, Hm, elem_of_list_filter. tauto. }
  destruct missed as [|m ms]; cbn [users_send].
  - intros u Hu. destruct (f u) as [n|] eqn:Ef; [eauto|]. exfalso. apply (proj2 (Hin u)). auto.
  - split; [discriminate|exact Hin].
Qed.

(** A direct send reports a busy transport to the caller instead of keeping the
    message. *)
Theorem C79_direct_send : forall r,
  (control_send r = Ok tt <-> r = None) /\
  (control_send r = Err NBusy <-> r = Some (IoError WouldBlock)) /\
  (control_send r = Err NShutdown <-> r = Some (IoError BrokenPipe)).
Proof. intros [[[]|]|]; cbn; repeat split; intros; congruence. Qed.

Print Assumptions C79_handed_or_kept.
Print Assumptions C79_nothing_lost.
Print Assumptions C79_order_kept.
Print Assumptions C79_one_pending.
Print Assumptions C79_drains.
Print Assumptions C79_refused_command_blocks.
Print Assumptions C79_closed_drops.
Print Assumptions C79_direct_send.
Print Assumptions C75_result.

(** A transport busy for its first three answers. *)
Definition busy3 (n : nat) (c : tcmd) : tresult := if (n <? 3)%nat then Some (IoError WouldBlock) else None.
Definition csched : list cop :=
  [Submit (Connect [adr 1; adr 2]); Submit (SendMsg [7]%N [] High); Poll; Submit (Disconnect 7%N)].
Example csched_partly : let s := c_run busy3 csched in
  pending s = [Connect [adr 1; adr 2]] /\ inbox s = [SendMsg [7]%N [] High; Disconnect 7%N] /\ accepted (log s) = [].
Proof. vm_compute. auto. Qed.
Example csched_next : let s := c_run busy3 (csched ++ [Poll]) in
  pending s = [Connect [adr 1]] /\ accepted (log s) = [Dial (adr 2)].
Proof. vm_compute. auto. Qed.
Example csched_done : let s := c_run busy3 (csched ++ [Poll; Poll]) in
  pending s = [] /\ inbox s = [] /\
  accepted (log s) = [Dial (adr 2); Dial (adr 1); QuickBroadcast [7]%N []; Close 7%N].
Proof. vm_compute. auto. Qed.
Example csched_open : never_closed (log (c_run busy3 (csched ++ [Poll; Poll]))).
Proof.
  intros c H. vm_compute in H. repeat (destruct H as [H|H]; [discriminate H|]). destruct H.
Qed.
(** A transport that refuses to dial one address blocks the message behind it. *)
Definition refuse2 (n : nat) (c : tcmd) : tresult :=
  match c with Dial [_; Tcp 2%N] => Some OtherError | _ => None end.
Example refused_blocks : inbox (c_run refuse2 (csched ++ [Poll; Poll; Poll])) = [SendMsg [7]%N [] High; Disconnect 7%N].
Proof. vm_compute. reflexivity. Qed.
