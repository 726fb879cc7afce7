(** * Sessions over histories (C74, C75) *)
From Coq Require Import List Bool NArith Lia.
From stdpp Require Import base decidable list gmap sets fin_sets.
From Verif Require Import Base Types CodecProps PeerManager PmSpec PmFacts.
Import ListNotations.
Local Open Scope N_scope.

Section More.
  Context (digest : bytes -> hash) (peer_id : pubkey -> pid).
  Notation pubkey_user := (pubkey_user digest).
  Notation our_id := (our_id peer_id).
  Notation process_event := (process_event digest peer_id).
  Notation act := (act digest peer_id).
  Notation reach := (reach digest peer_id).
  Notation start := (start digest peer_id).
  Notation inv := (inv digest peer_id).

  (** ** How the session tables change in one action *)
  Lemma add_peer_addr_sess p a s :
    peer_session (add_peer_addr p a s) = peer_session s /\ session_peer (add_peer_addr p a s) = session_peer s.
  Proof. unfold add_peer_addr. destruct (pool s !! p); split; reflexivity. Qed.
  Lemma identify_sess a s :
    peer_session (identify_addr a s) = peer_session s /\ session_peer (identify_addr a s) = session_peer s.
  Proof.
    unfold identify_addr. destruct (match_pid a s) as [p|].
    - destruct (peer_connected p s); [apply add_peer_addr_sess|split; reflexivity].
    - destruct (unknowns s !! a); split; reflexivity.
  Qed.
  Lemma fold_sess {A} (f : pm -> A -> pm) l s :
    (forall s x, peer_session (f s x) = peer_session s /\ session_peer (f s x) = session_peer s) ->
    peer_session (fold_left f l s) = peer_session s /\ session_peer (fold_left f l s) = session_peer s.
  Proof.
    intros Hf. revert s. induction l as [|x l IH]; intros s; cbn; [split; reflexivity|].
    destruct (IH (f s x)) as [-> ->]. apply Hf.
  Qed.

  (** Closing: [p]'s session, if any, is forgotten. *)
  Definition closed_ps (p : pid) (s : pm) := delete p (peer_session s).
  Definition closed_sp (p : pid) (s : pm) :=
    match peer_session s !! p with Some n => delete n (session_peer s) | None => session_peer s end.

  Lemma close_sess c p s :
    peer_session (close_peer_session c p s) = closed_ps p s /\ session_peer (close_peer_session c p s) = closed_sp p s.
  Proof. rewrite close_eq. split; reflexivity. Qed.
  Lemma cleanly_sess cfg c p s :
    peer_session (cleanly_remove_peer peer_id cfg c p s) = closed_ps p s /\
    session_peer (cleanly_remove_peer peer_id cfg c p s) = closed_sp p s.
  Proof. rewrite cleanly_eq. cbv zeta. destruct (is_bootstrap_peer peer_id cfg p); split; reflexivity. Qed.

  Lemma increase_sess cfg c p s :
    let s' := increase_peer_retry peer_id cfg c p s in
    (peer_session s' = peer_session s /\ session_peer s' = session_peer s) \/
    (peer_session s' = closed_ps p s /\ session_peer s' = closed_sp p s).
  Proof.
    cbv zeta. unfold increase_peer_retry.
    destruct (reach_max_retry p (increase_retry_count c p s)); [right|left; split; reflexivity].
    destruct (cleanly_sess cfg c p (increase_retry_count c p s)) as [-> ->]. split; reflexivity.
  Qed.

  Lemma closed_idem p s : delete p (closed_ps p s) = closed_ps p s.
  Proof. unfold closed_ps. apply delete_idemp. Qed.

  Lemma detach_sess cfg c p s :
    peer_session (detach_peer_session peer_id cfg c p s) = closed_ps p s /\
    session_peer (detach_peer_session peer_id cfg c p s) = closed_sp p s.
  Proof.
    unfold detach_peer_session. cbv zeta. set (s1 := close_peer_session c p s).
    assert (peer_session s1 = closed_ps p s /\ session_peer s1 = closed_sp p s) as [E1 E2] by apply close_sess.
    destruct (pool s1 !! p) as [pe|]; [|split; assumption].
    destruct (alive (p_state pe) <? ALIVE_RETRY_INTERVAL); [|split; assumption].
    destruct (increase_sess cfg c p s1) as [[-> ->]|[-> ->]]; [split; assumption|].
    unfold closed_ps, closed_sp in *. rewrite E1, E2, lookup_delete, delete_idemp. split; reflexivity.
  Qed.

  (** The session tables after an action: as before, or with one peer's session
      closed, or with one opened. *)
  Inductive sess_change (cfg : config) (s s' : pm) (a : action) : Prop :=
    | sc_same : peer_session s' = peer_session s -> session_peer s' = session_peer s ->
        ~ (exists p, closes_peer a p) -> ~ (exists pk n, opens a pk n) -> sess_change cfg s s' a
    | sc_close p : peer_session s' = closed_ps p s -> session_peer s' = closed_sp p s ->
        (closes_peer a p \/ a = AEvent (RemovePeer p) \/ a = AEvent (RetryPeerLater p) \/
         (exists n, a = AEvent (RemovePeerBySession n) /\ session_peer s !! n = Some p) \/
         (exists ad, a = AEvent (ReconnectLater ad) /\ p ∉ connected s)) -> sess_change cfg s s' a
    | sc_open pk n ad ty : a = AEvent (AttachPeerSession pk n ad ty) ->
        peer_session s' = <[peer_id pk := n]> (peer_session s) ->
        session_peer s' = <[n := peer_id pk]> (session_peer s) -> sess_change cfg s s' a.

  Lemma sess_act cfg c s a : sess_change cfg s (fst (act cfg c s a)) a.
  Proof.
    destruct a as [e|picks unks]; cbn [PeerManager.act].
    2: { cbn [routine fst]. cbv zeta.
         assert (peer_session (fold_left (λ s p, connect_peer p s) picks s) = peer_session s /\
                 session_peer (fold_left (λ s p, connect_peer p s) picks s) = session_peer s) as [E1 E2].
         { apply fold_sess. intros s1 p. unfold connect_peer. destruct (peer_connected p s1); split; reflexivity. }
         apply sc_same; [exact E1|exact E2| |].
         - intros (p & n & ty & E). discriminate.
         - intros (pk & n & ad & ty & E). discriminate. }
    assert (forall (P : Prop), (~ (exists p, closes_peer (AEvent e) p) -> ~ (exists pk n, opens (AEvent e) pk n) -> P) ->
      match e with AttachPeerSession _ _ _ _ => True | DetachPeerSession _ _ _ => True | _ => P end) as Hno.
    { intros P HP. destruct e; try exact I; apply HP;
        first [intros (p0 & n0 & ty0 & E); discriminate | intros (pk0 & n0 & ad0 & ty0 & E); discriminate]. }
    destruct e as [pk n a ty|p n ty|p|p|n|p|a|l|p l|ty n a|a|a|a|a|us msg pri]; cbn [PeerManager.process_event fst].
    - eapply sc_open; [reflexivity| |]; rewrite attach_eq; cbv zeta; cbn [peer_session session_peer];
        destruct (attached_frame digest peer_id c pk a ty s) as (_ & _ & E1 & E2 & _); rewrite ?E1, ?E2; reflexivity.
    - eapply (sc_close _ _ _ _ p); [apply detach_sess..|]. left. exists n, ty. reflexivity.
    - apply Hno. intros. apply sc_same; auto.
    - eapply (sc_close _ _ _ _ p); [apply cleanly_sess..|]. auto.
    - destruct (session_peer s !! n) as [p|] eqn:E; cbn [fst].
      + eapply (sc_close _ _ _ _ p); [apply cleanly_sess..|]. right. right. right. left. eauto.
      + rewrite detach_sid_none by exact E. apply Hno. intros. apply sc_same; auto.
    - destruct (increase_sess cfg c p s) as [[E1 E2]|[E1 E2]].
      + apply Hno. intros. apply sc_same; auto.
      + eapply (sc_close _ _ _ _ p); [assumption..|]. auto.
    - apply Hno. intros. destruct (identify_sess a s). apply sc_same; auto.
    - apply Hno. intros. destruct (fold_sess (fun s a => identify_addr a s) l s) as [? ?]; [intros; apply identify_sess|].
      apply sc_same; auto.
    - apply Hno. intros. destruct (fold_sess (fun s a => add_peer_addr p a s) l s) as [? ?]; [intros; apply add_peer_addr_sess|].
      apply sc_same; auto.
    - apply Hno. intros. destruct ty; [apply sc_same; auto|]. unfold add_session_addr. cbv zeta.
      destruct (session_peer _ !! n) as [p|]; [|apply sc_same; auto].
      destruct (add_peer_addr_sess p a (with_unknowns (delete a (unknowns s)) s)). apply sc_same; auto.
    - apply Hno. intros. destruct (decide _); [apply sc_same; auto|].
      unfold try_remove_addr. destruct (addr_pid _ !! a); apply sc_same; auto.
    - fold (reconnect_unknown a s). destruct (reconnect_frame a s) as [u Hu]. rewrite Hu.
      destruct (match_pid a (with_unknowns u s)) as [p|]; [|apply Hno; intros; apply sc_same; auto].
      unfold peer_connected. case_bool_decide as Hc; [apply Hno; intros; apply sc_same; auto|].
      destruct (increase_sess cfg c p (with_unknowns u s)) as [[E1 E2]|[E1 E2]].
      + apply Hno. intros. apply sc_same; auto.
      + eapply (sc_close _ _ _ _ p); [assumption..|]. right. right. right. right. eauto.
    - apply Hno. intros. destruct (add_peer_addr_sess (our_id cfg) a s). apply sc_same; auto.
    - apply Hno. intros. apply sc_same; auto.
    - apply Hno. intros. apply sc_same; auto.
  Qed.

  (** ** The start *)
  Lemma insert_peers_sess c l s :
    peer_session (insert_peers digest peer_id c l s) = peer_session s /\
    session_peer (insert_peers digest peer_id c l s) = session_peer s.
  Proof. unfold insert_peers. apply fold_sess. intros s1 [pk st]. split; reflexivity. Qed.
  Lemma start_sess cfg c saved : peer_session (start cfg c saved) = ∅ /\ session_peer (start cfg c saved) = ∅.
  Proof.
    unfold PeerManager.start. set (l := map _ saved).
    destruct (insert_peers_sess c l (pm_new digest peer_id cfg c)) as [E1 E2].
    destruct (bootstraps cfg) as [|b bs] eqn:Eb; [rewrite E1, E2; split; reflexivity|]. cbv beta iota. clear Eb b bs.
    unfold bootstrap. cbn [fst with_boot_addrs peer_session session_peer]. cbv zeta.
    destruct (fold_sess (fun s pe => connect_peer (p_id pe) (i_add_peer pe s)) (boot_peers digest peer_id cfg c)
      (insert_peers digest peer_id c l (pm_new digest peer_id cfg c))) as [E3 E4].
    { intros s1 x. unfold connect_peer. destruct (peer_connected _ _); split; reflexivity. }
    rewrite E3, E4, E1, E2. split; reflexivity.
  Qed.

  (** ** A recorded session is the latest one *)
  Lemma latest_snoc h pk n c a :
    latest_session peer_id h pk n -> ~ opens_peer peer_id a (peer_id pk) -> ~ closes_peer a (peer_id pk) ->
    latest_session peer_id (h ++ [(c, a)]) pk n.
  Proof.
    intros (pre & c0 & a0 & post & -> & Ho & Hp) H1 H2. exists pre, c0, a0, (post ++ [(c, a)]).
    rewrite <- app_assoc. cbn. repeat split; try assumption;
      intros; (apply in_app_or in H as [H|[[= <- <-]|[]]]; [apply (Hp _ _ H)|assumption]).
  Qed.

  Lemma session_latest cfg c0 saved h s : reach cfg (start cfg c0 saved) h s ->
    forall p n, peer_session s !! p = Some n ->
    exists pk, peer_id pk = p /\ latest_session peer_id h pk n.
  Proof.
    induction 1 as [|h s c a _ IH _]; intros p n Hp.
    - destruct (start_sess cfg c0 saved) as [E _]. rewrite E, lookup_empty in Hp. discriminate.
    - destruct (sess_act cfg c s a) as [E1 _ Hc Ho|q E1 _ Hwhy|pk m ad ty -> E1 _].
      + rewrite E1 in Hp. destruct (IH p n Hp) as (pk & <- & Hl). exists pk. split; [reflexivity|].
        apply latest_snoc; [exact Hl| |].
        * intros (pk' & n' & Hop & _). apply Ho. eauto.
        * intros Hcl. apply Hc. eauto.
      + rewrite E1 in Hp. unfold closed_ps in Hp. apply lookup_delete_Some in Hp as [Hne Hp].
        destruct (IH p n Hp) as (pk & <- & Hl). exists pk. split; [reflexivity|].
        apply latest_snoc; [exact Hl| |].
        * intros (pk' & n' & (ad & ty & ->) & _).
          destruct Hwhy as [(? & ? & ?)|[?|[?|[(? & ? & _)|(? & ? & _)]]]]; discriminate.
        * intros (n' & ty & ->).
          destruct Hwhy as [(? & ? & [= ?])|[?|[?|[(? & ? & _)|(? & ? & _)]]]]; try discriminate. congruence.
      + rewrite E1 in Hp. apply lookup_insert_Some in Hp as [[<- <-]|[Hne Hp]].
        * exists pk. split; [reflexivity|]. exists h, c, (AEvent (AttachPeerSession pk m ad ty)), [].
          split; [reflexivity|]. split; [exists ad, ty; reflexivity|]. intros c' a' [].
        * destruct (IH p n Hp) as (pk' & <- & Hl). exists pk'. split; [reflexivity|].
          apply latest_snoc; [exact Hl| |].
          -- intros (pk'' & n' & (ad' & ty' & [= -> -> -> ->]) & E). congruence.
          -- intros (n' & ty' & ?). discriminate.
  Qed.

  Lemma ever_snoc h x p n : ever_session peer_id h p n -> ever_session peer_id (h ++ [x]) p n.
  Proof. intros (c & a & pk & Hin & Ho & E). exists c, a, pk. split; [apply in_or_app; left; exact Hin|]. auto. Qed.

  Lemma sp_ever cfg c0 saved h s : reach cfg (start cfg c0 saved) h s ->
    forall n p, session_peer s !! n = Some p -> ever_session peer_id h p n.
  Proof.
    induction 1 as [|h s c a _ IH _]; intros n p Hp.
    - destruct (start_sess cfg c0 saved) as [_ E]. rewrite E, lookup_empty in Hp. discriminate.
    - destruct (sess_act cfg c s a) as [_ E1 _ _|q _ E1 _|pk m ad ty -> _ E1]; rewrite E1 in Hp.
      + apply ever_snoc, IH, Hp.
      + apply ever_snoc, IH. unfold closed_sp in Hp. destruct (peer_session s !! q); [|exact Hp].
        apply lookup_delete_Some in Hp as [_ Hp]. exact Hp.
      + apply lookup_insert_Some in Hp as [[<- <-]|[_ Hp]]; [|apply ever_snoc, IH, Hp].
        exists c, (AEvent (AttachPeerSession pk m ad ty)), pk. split; [apply in_or_app; right; left; reflexivity|].
        split; [exists ad, ty; reflexivity|reflexivity].
  Qed.

  Lemma session_kept cfg c0 saved h s c a p n :
    reach cfg (start cfg c0 saved) h s -> inv cfg s ->
    peer_session s !! p = Some n -> ~ drops peer_id h p a ->
    peer_session (fst (act cfg c s a)) !! p = Some n.
  Proof.
    intros Hr Hi Hp Hd. destruct (sess_act cfg c s a) as [E1 _ _ _|q E1 _ Hwhy|pk m ad ty -> E1 _]; rewrite E1.
    - exact Hp.
    - unfold closed_ps. apply lookup_delete_Some. split; [|exact Hp]. intros ->. apply Hd. unfold drops.
      destruct Hwhy as [?|[?|[?|[(n' & -> & Hn)|(ad & -> & Hn)]]]]; [tauto..| |].
      + right. right. right. right. exists n'. split; [reflexivity|]. eapply sp_ever; eassumption.
      + destruct (i_ps _ _ _ _ Hi _ _ Hp) as [Hc _]. contradiction.
    - apply lookup_insert_Some. right. split; [|exact Hp]. intros <-. apply Hd. left.
      exists pk, m. split; [exists ad, ty; reflexivity|reflexivity].
  Qed.

  (** ** Sessions map back *)
  Lemma opened_app h1 h2 : opened_sessions (h1 ++ h2) = opened_sessions h1 ++ opened_sessions h2.
  Proof. unfold opened_sessions. apply flat_map_app. Qed.
  Lemma ever_opened h p n : ever_session peer_id h p n -> In n (opened_sessions h).
  Proof.
    intros (c & a & pk & Hin & (ad & ty & ->) & _). unfold opened_sessions. apply in_flat_map.
    eexists. split; [exact Hin|]. left. reflexivity.
  Qed.

  Lemma sessions_back cfg c0 saved h s : reach cfg (start cfg c0 saved) h s -> sessions_distinct h ->
    forall p n, peer_session s !! p = Some n -> session_peer s !! n = Some p.
  Proof.
    intros Hr. pose proof Hr as Hr'. induction Hr as [|h s c a Hr IH _]; intros Hd p n Hp.
    - destruct (start_sess cfg c0 saved) as [E _]. rewrite E, lookup_empty in Hp. discriminate.
    - unfold sessions_distinct in Hd. rewrite opened_app in Hd.
      assert (sessions_distinct h) as Hd1. { apply NoDup_app in Hd as [Hd _]. exact Hd. }
      specialize (IH Hr Hd1).
      destruct (sess_act cfg c s a) as [E1 E2 _ _|q E1 E2 _|pk m ad ty -> E1 E2]; rewrite E2; rewrite E1 in Hp.
      + auto.
      + unfold closed_ps in Hp. apply lookup_delete_Some in Hp as [Hne Hp]. unfold closed_sp.
        destruct (peer_session s !! q) as [m|] eqn:Eq; [|auto].
        apply lookup_delete_Some. split; [|auto]. intros ->. apply IH in Eq. apply IH in Hp. congruence.
      + apply lookup_insert_Some in Hp as [[<- <-]|[Hne Hp]]; [apply lookup_insert|].
        apply IH in Hp. rewrite lookup_insert_ne; [exact Hp|]. intros ->.
        apply NoDup_app in Hd as (_ & Hd & _). apply (Hd n).
        * apply elem_of_list_In. eapply ever_opened, sp_ever; [exact Hr|exact Hp].
        * cbn. apply elem_of_list_singleton. reflexivity.
  Qed.
End More.
