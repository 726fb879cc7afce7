(** * The pool of peers over histories (C74, C76, C77, C78, C84) *)
From Coq Require Import List Bool NArith Lia.
From stdpp Require Import base decidable list gmap sets fin_sets.
From Verif Require Import Base Types CodecProps PeerManager PmSpec PmFacts PmMore.
Import ListNotations.
Local Open Scope N_scope.

Section Peers.
  Context (digest : bytes -> hash) (peer_id : pubkey -> pid).
  Notation pubkey_user := (pubkey_user digest).
  Notation our_id := (our_id peer_id).
  Notation process_event := (process_event digest peer_id).
  Notation act := (act digest peer_id).
  Notation reach := (reach digest peer_id).
  Notation start := (start digest peer_id).
  Notation inv := (inv digest peer_id).
  Notation is_boot := (is_bootstrap_peer peer_id).

  Definition boot_in (cfg : config) (s : pm) : Prop :=
    forall x, In x (bootstraps cfg) -> is_Some (pool s !! peer_id (fst x)).

  Lemma is_boot_spec cfg p : is_boot cfg p = true <-> exists x, In x (bootstraps cfg) /\ peer_id (fst x) = p.
  Proof.
    unfold is_bootstrap_peer. rewrite existsb_exists. split; intros (x & Hin & Hx); exists x; (split; [exact Hin|]).
    - apply bool_decide_eq_true in Hx. exact Hx.
    - apply bool_decide_eq_true. exact Hx.
  Qed.

  (** ** Who leaves the pool *)
  Definition may_remove (s : pm) (p : pid) (a : action) : Prop :=
    closes_peer a p \/ a = AEvent (RemovePeer p) \/ a = AEvent (RetryPeerLater p) \/
    (exists n, a = AEvent (RemovePeerBySession n) /\ session_peer s !! n = Some p) \/
    (exists ad, a = AEvent (ReconnectLater ad) /\ p ∉ connected s).

  Lemma cleanly_dom cfg c p q s : is_Some (pool s !! q) -> (q = p -> is_boot cfg p = true) ->
    is_Some (pool (cleanly_remove_peer peer_id cfg c p s) !! q).
  Proof.
    intros H Hb. rewrite cleanly_eq. cbv zeta. destruct (is_boot cfg p) eqn:E; cbn [pool].
    - apply is_Some_alter, H.
    - rewrite lookup_delete_ne; [exact H|]. intros ->. discriminate (Hb eq_refl).
  Qed.
  Lemma increase_dom cfg c p q s : is_Some (pool s !! q) -> (q = p -> is_boot cfg p = true) ->
    is_Some (pool (increase_peer_retry peer_id cfg c p s) !! q).
  Proof.
    intros H Hb. unfold increase_peer_retry.
    assert (is_Some (pool (increase_retry_count c p s) !! q)) as H1 by (apply is_Some_alter, H).
    destruct (reach_max_retry p (increase_retry_count c p s)); [apply cleanly_dom; assumption|exact H1].
  Qed.
  Lemma add_addr_dom p a q s : is_Some (pool s !! q) -> is_Some (pool (add_peer_addr p a s) !! q).
  Proof.
    intros H. unfold add_peer_addr. destruct (pool s !! p); [|exact H]. cbn. apply is_Some_alter, H.
  Qed.
  Lemma identify_dom a q s : is_Some (pool s !! q) -> is_Some (pool (identify_addr a s) !! q).
  Proof.
    intros H. unfold identify_addr. destruct (match_pid a s) as [p|].
    - destruct (peer_connected p s); [apply add_addr_dom|]; exact H.
    - destruct (unknowns s !! a); exact H.
  Qed.
  Lemma connect_fold_pool picks s : pool (fold_left (fun s p => connect_peer p s) picks s) = pool s.
  Proof. revert s. induction picks as [|p l IH]; intros s; cbn; [reflexivity|]. rewrite IH. apply connect_pool. Qed.

  Lemma dom_act cfg c s a q : is_Some (pool s !! q) ->
    (may_remove s q a -> is_boot cfg q = true) -> is_Some (pool (fst (act cfg c s a)) !! q).
  Proof.
    intros H Hb. unfold may_remove in Hb. destruct a as [e|picks unks]; cbn [PeerManager.act].
    2: { cbn. rewrite connect_fold_pool. exact H. }
    destruct e as [pk n a ty|p n ty|p|p|n|p|a|l|p l|ty n a|a|a|a|a|us msg pri]; cbn [PeerManager.process_event fst].
    - rewrite attach_eq. cbn [pool]. apply is_Some_alter. apply attached_pool, H.
    - unfold detach_peer_session. cbv zeta.
      assert (is_Some (pool (close_peer_session c p s) !! q)) as H1.
      { rewrite close_eq. cbn [pool]. apply is_Some_alter, H. }
      destruct (pool (close_peer_session c p s) !! p) as [pe|]; [|exact H1].
      destruct (alive (p_state pe) <? ALIVE_RETRY_INTERVAL); [|exact H1].
      apply increase_dom; [exact H1|]. intros ->. apply Hb. left. exists n, ty. reflexivity.
    - apply is_Some_alter, H.
    - apply cleanly_dom; [exact H|]. intros ->. apply Hb. auto.
    - destruct (session_peer s !! n) as [p|] eqn:E; cbn [fst].
      + apply cleanly_dom; [exact H|]. intros ->. apply Hb. right. right. right. left. eauto.
      + rewrite detach_sid_none by exact E. exact H.
    - apply increase_dom; [exact H|]. intros ->. apply Hb. auto.
    - apply identify_dom, H.
    - apply (fold_left_inv (fun s a => identify_addr a s) (fun s => is_Some (pool s !! q))); [|exact H].
      intros. apply identify_dom. assumption.
    - apply (fold_left_inv (fun s a => add_peer_addr p a s) (fun s => is_Some (pool s !! q))); [|exact H].
      intros. apply add_addr_dom. assumption.
    - destruct ty; [exact H|]. unfold add_session_addr. cbv zeta.
      destruct (session_peer _ !! n); [apply add_addr_dom|]; exact H.
    - destruct (decide _); [exact H|]. unfold try_remove_addr. destruct (addr_pid _ !! a) as [p|]; [|exact H].
      cbn. apply is_Some_alter, H.
    - fold (reconnect_unknown a s). destruct (reconnect_frame a s) as [u Hu]. rewrite Hu.
      destruct (match_pid a (with_unknowns u s)) as [p|]; [|exact H].
      unfold peer_connected. case_bool_decide as Hc; [exact H|].
      apply increase_dom; [exact H|]. intros ->. apply Hb. right. right. right. right. eauto.
    - apply add_addr_dom, H.
    - cbn. apply is_Some_alter, H.
    - exact H.
  Qed.

  Lemma start_pool_mono cfg c saved q :
    is_Some (pool (insert_peers digest peer_id c (map (fun '(pk, st) => (pk, reloaded c st)) saved) (pm_new digest peer_id cfg c)) !! q) ->
    is_Some (pool (start cfg c saved) !! q).
  Proof.
    intros H. unfold PeerManager.start. set (s0 := insert_peers _ _ _ _ _) in *.
    destruct (bootstraps cfg) as [|b bs] eqn:Eb; [exact H|]. cbv beta iota. clear Eb b bs.
    unfold bootstrap. cbn [fst with_boot_addrs pool]. cbv zeta.
    apply (fold_left_inv (fun s pe => connect_peer (p_id pe) (i_add_peer pe s)) (fun s => is_Some (pool s !! q))); [|exact H].
    intros s x Hs. rewrite connect_pool. cbn.
    destruct (decide (p_id x = q)) as [<-|Hne]; [rewrite lookup_insert; eauto|rewrite lookup_insert_ne by exact Hne; exact Hs].
  Qed.

  Lemma insert_peers_mono c l s q : is_Some (pool s !! q) -> is_Some (pool (insert_peers digest peer_id c l s) !! q).
  Proof.
    intros H. unfold insert_peers.
    apply (fold_left_inv (fun s x => insert_peer digest peer_id c x s) (fun s => is_Some (pool s !! q))); [|exact H].
    intros s1 [pk st] H1. cbn. destruct (decide (peer_id pk = q)) as [<-|Hne];
      [rewrite lookup_insert; eauto|rewrite lookup_insert_ne by exact Hne; exact H1].
  Qed.

  Lemma own_start cfg c saved : is_Some (pool (start cfg c saved) !! our_id cfg).
  Proof.
    apply start_pool_mono, insert_peers_mono. cbn. rewrite lookup_singleton. eauto.
  Qed.

  Lemma boot_fold_in c l s x : In x l ->
    is_Some (pool (fold_left (fun s pe => connect_peer (p_id pe) (i_add_peer pe s)) (map (from_pair digest peer_id c) l) s) !! peer_id (fst x)).
  Proof.
    revert s. induction l as [|y l IH]; intros s Hx; [destruct Hx|]. destruct Hx as [->|Hx]; cbn [map fold_left].
    - apply (fold_left_inv (fun s pe => connect_peer (p_id pe) (i_add_peer pe s)) (fun s => is_Some (pool s !! peer_id (fst x)))).
      + intros s1 z Hs. rewrite connect_pool. cbn.
        destruct (decide (p_id z = peer_id (fst x))) as [->|Hne]; [rewrite lookup_insert; eauto|rewrite lookup_insert_ne by exact Hne; exact Hs].
      + rewrite connect_pool. cbn. rewrite lookup_insert. eauto.
    - apply IH, Hx.
  Qed.

  Lemma boot_start cfg c saved : boot_in cfg (start cfg c saved).
  Proof.
    intros x Hx. unfold PeerManager.start. destruct (bootstraps cfg) as [|b bs] eqn:Eb; [destruct Hx|].
    cbv beta iota. rewrite <- Eb in Hx. clear Eb b bs. unfold bootstrap. cbn [fst with_boot_addrs pool]. cbv zeta.
    unfold boot_peers. apply boot_fold_in, Hx.
  Qed.

  Lemma boot_act cfg c s a : boot_in cfg s -> boot_in cfg (fst (act cfg c s a)).
  Proof.
    intros H x Hx. apply dom_act; [apply H, Hx|]. intros _. apply is_boot_spec. eauto.
  Qed.
  Lemma boot_reach cfg c0 saved h s : reach cfg (start cfg c0 saved) h s -> boot_in cfg s.
  Proof. induction 1 as [|h s c a _ IH _]; [apply boot_start|apply boot_act, IH]. Qed.

  (** ** Ourself *)
  Record own_inv (cfg : config) (s : pm) : Prop := {
    o_conn : our_id cfg ∈ connected s;
    o_pool : is_Some (pool s !! our_id cfg);
    o_ps : peer_session s !! our_id cfg = None;
    o_sp : forall n, session_peer s !! n <> Some (our_id cfg)
  }.

  (** *** the connected and connecting sets *)
  Lemma cleanly_conn cfg c p s :
    connected (cleanly_remove_peer peer_id cfg c p s) = connected s ∖ {[p]} /\
    connecting (cleanly_remove_peer peer_id cfg c p s) = connecting s ∖ {[p]}.
  Proof. rewrite cleanly_eq. cbv zeta. destruct (is_boot cfg p); split; reflexivity. Qed.
  Lemma increase_conn cfg c p s :
    let s' := increase_peer_retry peer_id cfg c p s in
    (connected s' = connected s /\ connecting s' = connecting s) \/
    (connected s' = connected s ∖ {[p]} /\ connecting s' = connecting s ∖ {[p]}).
  Proof.
    cbv zeta. unfold increase_peer_retry.
    destruct (reach_max_retry p (increase_retry_count c p s)); [right|left; split; reflexivity].
    destruct (cleanly_conn cfg c p (increase_retry_count c p s)) as [-> ->]. split; reflexivity.
  Qed.
  Lemma detach_conn cfg c p s :
    connected (detach_peer_session peer_id cfg c p s) = connected s ∖ {[p]} /\
    connecting (detach_peer_session peer_id cfg c p s) = connecting s ∖ {[p]}.
  Proof.
    unfold detach_peer_session. cbv zeta. set (s1 := close_peer_session c p s).
    assert (connected s1 = connected s ∖ {[p]} /\ connecting s1 = connecting s ∖ {[p]}) as [E1 E2].
    { subst s1. rewrite close_eq. split; reflexivity. }
    destruct (pool s1 !! p) as [pe|]; [|split; assumption].
    destruct (alive (p_state pe) <? ALIVE_RETRY_INTERVAL); [|split; assumption].
    destruct (increase_conn cfg c p s1) as [[-> ->]|[-> ->]]; rewrite E1, E2; [split; reflexivity|].
    rewrite !diff_twice. split; reflexivity.
  Qed.
  Lemma add_addr_conn p a s :
    connected (add_peer_addr p a s) = connected s /\ connecting (add_peer_addr p a s) = connecting s.
  Proof. unfold add_peer_addr. destruct (pool s !! p); split; reflexivity. Qed.
  Lemma identify_conn a s :
    connected (identify_addr a s) = connected s /\ connecting (identify_addr a s) = connecting s.
  Proof.
    unfold identify_addr. destruct (match_pid a s) as [p|].
    - destruct (peer_connected p s); [apply add_addr_conn|split; reflexivity].
    - destruct (unknowns s !! a); split; reflexivity.
  Qed.
  Lemma fold_conn {A} (f : pm -> A -> pm) l s :
    (forall s x, connected (f s x) = connected s /\ connecting (f s x) = connecting s) ->
    connected (fold_left f l s) = connected s /\ connecting (fold_left f l s) = connecting s.
  Proof.
    intros Hf. revert s. induction l as [|x l IH]; intros s; cbn; [split; reflexivity|].
    destruct (IH (f s x)) as [-> ->]. apply Hf.
  Qed.
  Lemma connect_fold_conn picks s :
    connected (fold_left (fun s p => connect_peer p s) picks s) = connected s.
  Proof.
    revert s. induction picks as [|p l IH]; intros s; cbn; [reflexivity|]. rewrite IH.
    unfold connect_peer. destruct (peer_connected p s); reflexivity.
  Qed.
  Lemma connect_fold_connecting picks s : (forall p, In p picks -> p ∉ connected s) ->
    connecting (fold_left (fun s p => connect_peer p s) picks s) = list_to_set picks ∪ connecting s.
  Proof.
    revert s. induction picks as [|p l IH]; intros s Hp; cbn [fold_left list_to_set]; [set_solver|].
    assert (connected (connect_peer p s) = connected s) as E.
    { unfold connect_peer. destruct (peer_connected p s); reflexivity. }
    rewrite IH by (rewrite E; intros q Hq; apply Hp; right; exact Hq).
    unfold connect_peer, peer_connected. rewrite bool_decide_eq_false_2 by (apply Hp; left; reflexivity).
    cbn [with_conn connecting]. set_solver.
  Qed.

  Inductive conn_change (s s' : pm) (a : action) : Prop :=
    | cc_same : connected s' = connected s -> connecting s' = connecting s ->
        ~ (exists p, closes_peer a p \/ a = AEvent (RemovePeer p)) -> ~ (exists pk n, opens a pk n) ->
        ~ (exists picks unks, a = ARoutine picks unks) -> conn_change s s' a
    | cc_drop p : connected s' = connected s ∖ {[p]} -> connecting s' = connecting s ∖ {[p]} ->
        may_remove s p a -> conn_change s s' a
    | cc_open pk n ad ty : a = AEvent (AttachPeerSession pk n ad ty) ->
        connected s' = {[peer_id pk]} ∪ connected s -> connecting s' = connecting s ∖ {[peer_id pk]} ->
        conn_change s s' a
    | cc_routine picks unks : a = ARoutine picks unks ->
        connected s' = connected s -> connecting s ⊆ connecting s' ->
        ((forall p, In p picks -> p ∉ connected s) -> connecting s' = list_to_set picks ∪ connecting s) ->
        conn_change s s' a.

  Lemma conn_act cfg c s a : conn_change s (fst (act cfg c s a)) a.
  Proof.
    destruct a as [e|picks unks]; cbn [PeerManager.act].
    2: { eapply cc_routine; [reflexivity| | |]; cbn [routine fst with_unknowns connected connecting].
         - apply connect_fold_conn.
         - clear. revert s. induction picks as [|p l IH]; intros s; cbn; [reflexivity|].
           etransitivity; [|apply IH]. unfold connect_peer. destruct (peer_connected p s); cbn; set_solver.
         - apply connect_fold_connecting. }
    assert (forall (P : Prop), (~ (exists p, closes_peer (AEvent e) p \/ AEvent e = AEvent (RemovePeer p)) ->
        ~ (exists pk n, opens (AEvent e) pk n) ->
        ~ (exists picks unks, AEvent e = ARoutine picks unks) -> P) ->
      match e with AttachPeerSession _ _ _ _ => True | DetachPeerSession _ _ _ => True | RemovePeer _ => True | _ => P end) as Hno.
    { intros P HP. destruct e; try exact I; apply HP;
        first [intros (p0 & [(n0 & ty0 & E)|E]); discriminate | intros (pk0 & n0 & ad0 & ty0 & E); discriminate
              | intros (? & ? & E); discriminate]. }
    destruct e as [pk n a ty|p n ty|p|p|n|p|a|l|p l|ty n a|a|a|a|a|us msg pri]; cbn [PeerManager.process_event fst].
    - eapply cc_open; [reflexivity| |]; rewrite attach_eq; cbv zeta; cbn [connected connecting];
        destruct (attached_frame digest peer_id c pk a ty s) as (E1 & E2 & _); rewrite ?E1, ?E2; reflexivity.
    - eapply (cc_drop _ _ _ p); [apply detach_conn..|]. left. exists n, ty. reflexivity.
    - apply Hno. intros. apply cc_same; auto.
    - eapply (cc_drop _ _ _ p); [apply cleanly_conn..|]. right. left. reflexivity.
    - destruct (session_peer s !! n) as [p|] eqn:E; cbn [fst].
      + eapply (cc_drop _ _ _ p); [apply cleanly_conn..|]. right. right. right. left. eauto.
      + rewrite detach_sid_none by exact E. apply Hno. intros. apply cc_same; auto.
    - destruct (increase_conn cfg c p s) as [[E1 E2]|[E1 E2]].
      + apply Hno. intros. apply cc_same; auto.
      + eapply (cc_drop _ _ _ p); [assumption..|]. right. right. left. reflexivity.
    - apply Hno. intros. destruct (identify_conn a s). apply cc_same; auto.
    - apply Hno. intros. destruct (fold_conn (fun s a => identify_addr a s) l s) as [? ?]; [intros; apply identify_conn|].
      apply cc_same; auto.
    - apply Hno. intros. destruct (fold_conn (fun s a => add_peer_addr p a s) l s) as [? ?]; [intros; apply add_addr_conn|].
      apply cc_same; auto.
    - apply Hno. intros. destruct ty; [apply cc_same; auto|]. unfold add_session_addr. cbv zeta.
      destruct (session_peer _ !! n) as [p|]; [|apply cc_same; auto].
      destruct (add_addr_conn p a (with_unknowns (delete a (unknowns s)) s)). apply cc_same; auto.
    - apply Hno. intros. destruct (decide _); [apply cc_same; auto|].
      unfold try_remove_addr. destruct (addr_pid _ !! a); apply cc_same; auto.
    - fold (reconnect_unknown a s). destruct (reconnect_frame a s) as [u Hu]. rewrite Hu.
      destruct (match_pid a (with_unknowns u s)) as [p|]; [|apply Hno; intros; apply cc_same; auto].
      unfold peer_connected. case_bool_decide as Hc; [apply Hno; intros; apply cc_same; auto|].
      destruct (increase_conn cfg c p (with_unknowns u s)) as [[E1 E2]|[E1 E2]].
      + apply Hno. intros. apply cc_same; auto.
      + eapply (cc_drop _ _ _ p); [assumption..|]. right. right. right. right. eauto.
    - apply Hno. intros. destruct (add_addr_conn (our_id cfg) a s). apply cc_same; auto.
    - apply Hno. intros. apply cc_same; auto.
    - apply Hno. intros. apply cc_same; auto.
  Qed.

  Lemma insert_peers_conn c l s :
    connected (insert_peers digest peer_id c l s) = connected s /\
    connecting (insert_peers digest peer_id c l s) = connecting s.
  Proof. unfold insert_peers. apply fold_conn. intros s1 [pk st]. split; reflexivity. Qed.

  Lemma start_connected cfg c saved : connected (start cfg c saved) = {[our_id cfg]}.
  Proof.
    unfold PeerManager.start. set (l := map _ saved).
    destruct (insert_peers_conn c l (pm_new digest peer_id cfg c)) as [E1 _].
    destruct (bootstraps cfg) as [|b bs] eqn:Eb; [rewrite E1; reflexivity|]. cbv beta iota. clear Eb b bs.
    unfold bootstrap. cbn [fst with_boot_addrs connected]. cbv zeta.
    assert (forall pes s, connected (fold_left (fun s pe => connect_peer (p_id pe) (i_add_peer pe s)) pes s) = connected s) as E.
    { induction pes as [|pe pes IH]; intros s; cbn; [reflexivity|]. rewrite IH.
      unfold connect_peer. destruct (peer_connected _ _); reflexivity. }
    rewrite E, E1. reflexivity.
  Qed.

  Lemma own_reach cfg c0 saved h s : reach cfg (start cfg c0 saved) h s -> never_about_us peer_id cfg h -> own_inv cfg s.
  Proof.
    induction 1 as [|h s c a Hr IH _]; intros Hn.
    - destruct (start_sess digest peer_id cfg c0 saved) as [E1 E2]. split.
      + rewrite start_connected. set_solver.
      + apply own_start.
      + rewrite E1. apply lookup_empty.
      + intros n. rewrite E2, lookup_empty. discriminate.
    - assert (own_inv cfg s) as [H1 H2 H3 H4]. { apply IH. intros c' a' Hin. apply (Hn c' a'). apply in_or_app. left. exact Hin. }
      clear IH. assert (about_other peer_id cfg a) as Ha. { apply (Hn c a). apply in_or_app. right. left. reflexivity. }
      assert (forall p, may_remove s p a -> p <> our_id cfg) as Hm.
      { intros p [(n & ty & ->)|[->|[->|[(n & -> & Hs)|(ad & -> & Hc)]]]]; cbn in Ha; try exact Ha.
        - intros ->. exact (H4 n Hs).
        - intros ->. exact (Hc H1). }
      split.
      + destruct (conn_act cfg c s a) as [E _ _ _ _|p E _ Hw|pk n ad ty _ E _|picks unks _ E _ _]; rewrite E.
        * exact H1.
        * apply Hm in Hw. set_solver.
        * set_solver.
        * exact H1.
      + apply dom_act; [exact H2|]. intros Hw. exfalso. exact (Hm _ Hw eq_refl).
      + destruct (sess_act digest peer_id cfg c s a) as [E _ _ _|p E _ _|pk n ad ty -> E _]; rewrite E.
        * exact H3.
        * apply lookup_delete_None. right. exact H3.
        * rewrite lookup_insert_ne; [exact H3|]. exact Ha.
      + intros n. destruct (sess_act digest peer_id cfg c s a) as [_ E _ _|p _ E _|pk m ad ty -> _ E]; rewrite E.
        * apply H4.
        * unfold closed_sp. destruct (peer_session s !! p) as [m|]; [|apply H4].
          intros Hd. apply lookup_delete_Some in Hd as [_ Hd]. exact (H4 n Hd).
        * intros Hd. apply lookup_insert_Some in Hd as [[_ Hd]|[_ Hd]]; [exact (Ha Hd)|exact (H4 n Hd)].
  Qed.

  (** ** A property of every peer in the pool *)
  Definition each_peer (P : pid -> peer -> Prop) (s : pm) : Prop := forall p pe, pool s !! p = Some pe -> P p pe.

  Section Each.
    Context (cfg : config) (P : pid -> peer -> Prop) (B : gset maddr) (ok : clock -> pid -> Prop) (fresh : pid -> Prop).
    Hypothesis H_add : forall p pe a, P p pe -> P p (add_addr a pe).
    Hypothesis H_rm : forall p pe a, (a ∉ B \/ p = our_id cfg) -> P p pe -> P p (remove_addr a pe).
    Hypothesis H_con : forall p pe c ip, P p pe -> P p (mark_connected c ip pe).
    Hypothesis H_dis : forall p pe c, P p pe -> P p (mark_disconnected c pe).
    Hypothesis H_reset : forall p pe, P p pe -> P p (reset_retry pe).
    Hypothesis H_inc : forall p pe c, ok c p -> P p pe -> retry_count (p_state (increase_retry c pe)) < MAX_RETRY_COUNT ->
      P p (increase_retry c pe).
    Hypothesis H_pen : forall p pe c, ok c p -> P p pe -> P p (boot_penalty c (mark_disconnected c pe)).
    Hypothesis H_pen2 : forall p pe c, ok c p -> P p pe -> P p (boot_penalty c (mark_disconnected c (increase_retry c pe))).
    Hypothesis H_new : forall c pk, fresh (peer_id pk) -> P (peer_id pk) (peer_new digest peer_id c pk).
    Hypothesis H_pair : forall c x, fresh (peer_id (fst x)) -> P (peer_id (fst x)) (from_pair digest peer_id c x).

    Lemma each_modify p f s : (forall pe, P p pe -> P p (f pe)) -> each_peer P s -> each_peer P (modify_peer p f s).
    Proof using Type.
      intros Hf H q pe Hq. cbn in Hq. apply lookup_alter_Some in Hq as (y & Hy & [->|[-> ->]]); [exact (H _ _ Hy)|].
      apply Hf, H, Hy.
    Qed.
    Lemma each_close c p s : each_peer P s -> each_peer P (close_peer_session c p s).
    Proof using H_dis.
      intros H q pe Hq. rewrite close_eq in Hq. cbn in Hq.
      apply lookup_alter_Some in Hq as (y & Hy & [->|[-> ->]]); [exact (H _ _ Hy)|]. apply H_dis, H, Hy.
    Qed.
    Lemma each_cleanly c p s : ok c p -> each_peer P s -> each_peer P (cleanly_remove_peer peer_id cfg c p s).
    Proof using H_pen.
      intros Hok H q pe Hq. rewrite cleanly_eq in Hq. cbv zeta in Hq. destruct (is_boot cfg p); cbn [pool] in Hq.
      - apply lookup_alter_Some in Hq as (y & Hy & [->|[-> ->]]); [exact (H _ _ Hy)|]. apply H_pen, H, Hy. exact Hok.
      - apply lookup_delete_Some in Hq as [_ Hq]. exact (H _ _ Hq).
    Qed.
    Lemma each_increase c p s : ok c p -> each_peer P s -> each_peer P (increase_peer_retry peer_id cfg c p s).
    Proof using H_inc H_pen2.
      intros Hok H. unfold increase_peer_retry. set (s1 := increase_retry_count c p s).
      destruct (reach_max_retry p s1) eqn:Er; intros q pe Hq.
      - rewrite cleanly_eq in Hq. cbv zeta in Hq. destruct (is_boot cfg p); cbn [pool] in Hq.
        + subst s1. cbn in Hq. rewrite <- alter_compose in Hq.
          apply lookup_alter_Some in Hq as (y & Hy & [->|[-> ->]]); [exact (H _ _ Hy)|]. apply H_pen2, H, Hy. exact Hok.
        + apply lookup_delete_Some in Hq as [Hne Hq]. subst s1. cbn in Hq. rewrite lookup_alter_ne in Hq by exact Hne.
          exact (H _ _ Hq).
      - pose proof Hq as Hq0. subst s1. cbn in Hq. apply lookup_alter_Some in Hq as (y & Hy & [->|[-> ->]]); [exact (H _ _ Hy)|].
        apply H_inc; [exact Hok|apply H, Hy|]. unfold reach_max_retry in Er. rewrite Hq0 in Er. apply N.leb_gt in Er. exact Er.
    Qed.
    Lemma each_add_peer_addr p a s : each_peer P s -> each_peer P (add_peer_addr p a s).
    Proof using H_add.
      intros H. unfold add_peer_addr. destruct (pool s !! p) eqn:E; [|exact H].
      intros q pe Hq. cbn in Hq. apply lookup_alter_Some in Hq as (y & Hy & [->|[-> ->]]); [exact (H _ _ Hy)|].
      apply H_add, H, Hy.
    Qed.
    Lemma each_identify a s : each_peer P s -> each_peer P (identify_addr a s).
    Proof using H_add.
      intros H. unfold identify_addr. destruct (match_pid a s) as [p|].
      - destruct (peer_connected p s); [apply each_add_peer_addr|]; exact H.
      - destruct (unknowns s !! a); exact H.
    Qed.

    Lemma each_act c s a : (forall p, may_remove s p a -> ok c p) -> (forall p, pool s !! p = None -> fresh p) ->
      boot_addrs s = B -> each_peer P s -> each_peer P (fst (act cfg c s a)).
    Proof using H_add H_rm H_con H_dis H_reset H_inc H_pen H_pen2 H_new H_pair.
      intros Hok Hfr HB H. unfold may_remove in Hok. destruct a as [e|picks unks]; cbn [PeerManager.act].
      2: { intros q pe Hq. cbn in Hq. rewrite connect_fold_pool in Hq. exact (H _ _ Hq). }
      destruct e as [pk n a ty|p n ty|p|p|n|p|a|l|p l|ty n a|a|a|a|a|us msg pri]; cbn [PeerManager.process_event fst].
      - assert (each_peer P (attached digest peer_id c pk a ty s)) as H1.
        { unfold attached. destruct (pool s !! peer_id pk) as [pe|] eqn:E.
          - destruct ty; [exact H|apply each_add_peer_addr, H].
          - apply Hfr in E.
            destruct ty; cbn [add_peer]; intros q pe Hq; cbn in Hq;
              (apply lookup_insert_Some in Hq as [[<- <-]|[_ Hq]]; [|exact (H _ _ Hq)]).
            + apply H_new, E.
            + apply (H_pair c (pk, a)), E. }
        rewrite attach_eq. cbv zeta. intros q pe Hq. cbn [pool] in Hq.
        apply lookup_alter_Some in Hq as (y & Hy & [->|[<- ->]]); [exact (H1 _ _ Hy)|]. apply H_con, H1, Hy.
      - unfold detach_peer_session. cbv zeta. pose proof (each_close c p s H) as H1.
        destruct (pool (close_peer_session c p s) !! p) as [pe|]; [|exact H1].
        destruct (alive (p_state pe) <? ALIVE_RETRY_INTERVAL); [|exact H1].
        apply each_increase; [|exact H1]. apply Hok. left. exists n, ty. reflexivity.
      - apply each_modify; [apply H_reset|exact H].
      - apply each_cleanly; [apply Hok; auto|exact H].
      - destruct (session_peer s !! n) as [p|] eqn:E; cbn [fst].
        + apply each_cleanly; [|exact H]. apply Hok. right. right. right. left. eauto.
        + rewrite detach_sid_none by exact E. exact H.
      - apply each_increase; [apply Hok; auto|exact H].
      - apply each_identify, H.
      - apply (fold_left_inv (fun s a => identify_addr a s) (each_peer P)); [|exact H]. intros. apply each_identify. assumption.
      - apply (fold_left_inv (fun s a => add_peer_addr p a s) (each_peer P)); [|exact H]. intros. apply each_add_peer_addr. assumption.
      - destruct ty; [exact H|]. unfold add_session_addr. cbv zeta.
        destruct (session_peer _ !! n); [apply each_add_peer_addr|]; exact H.
      - destruct (decide _) as [Hin|Hout]; [exact H|]. unfold try_remove_addr. destruct (addr_pid _ !! a) as [p|]; [|exact H].
        unfold remove_peer_addr. apply each_modify; [|exact H]. intros pe. apply H_rm. left. rewrite <- HB. exact Hout.
      - fold (reconnect_unknown a s). destruct (reconnect_frame a s) as [u Hu]. rewrite Hu.
        destruct (match_pid a (with_unknowns u s)) as [p|]; [|exact H].
        unfold peer_connected. case_bool_decide as Hc; [exact H|]. apply each_increase; [|exact H].
        apply Hok. right. right. right. right. eauto.
      - apply each_add_peer_addr, H.
      - unfold remove_peer_addr. apply each_modify; [|exact H]. intros pe. apply H_rm. right. reflexivity.
      - exact H.
    Qed.
  End Each.

  Lemma boot_addrs_act cfg c s a : boot_addrs (fst (act cfg c s a)) = boot_addrs s.
  Proof.
    assert (forall p s, boot_addrs (cleanly_remove_peer peer_id cfg c p s) = boot_addrs s) as Hcl.
    { intros p s1. rewrite cleanly_eq. cbv zeta. destruct (is_boot cfg p); reflexivity. }
    assert (forall p s, boot_addrs (increase_peer_retry peer_id cfg c p s) = boot_addrs s) as Hin.
    { intros p s1. unfold increase_peer_retry. destruct (reach_max_retry _ _); [rewrite Hcl|]; reflexivity. }
    assert (forall p a s, boot_addrs (add_peer_addr p a s) = boot_addrs s) as Had.
    { intros p a1 s1. unfold add_peer_addr. destruct (pool s1 !! p); reflexivity. }
    assert (forall a s, boot_addrs (identify_addr a s) = boot_addrs s) as Hid.
    { intros a1 s1. unfold identify_addr. destruct (match_pid a1 s1) as [p|].
      - destruct (peer_connected p s1); [apply Had|reflexivity].
      - destruct (unknowns s1 !! a1); reflexivity. }
    assert (forall A (f : pm -> A -> pm) l s, (forall s x, boot_addrs (f s x) = boot_addrs s) ->
       boot_addrs (fold_left f l s) = boot_addrs s) as Hfold.
    { intros A f l. induction l as [|x l IH]; intros s1 Hf; cbn; [reflexivity|]. rewrite IH by exact Hf. apply Hf. }
    destruct a as [e|picks unks]; cbn [PeerManager.act].
    2: { cbn. apply Hfold. intros s1 x. unfold connect_peer. destruct (peer_connected x s1); reflexivity. }
    destruct e as [pk n a ty|p n ty|p|p|n|p|a|l|p l|ty n a|a|a|a|a|us msg pri]; cbn [PeerManager.process_event fst]; auto.
    - rewrite attach_eq. cbn. apply attached_frame.
    - unfold detach_peer_session. cbv zeta. destruct (pool _ !! p); [|rewrite close_eq; reflexivity].
      destruct (_ <? _); rewrite ?Hin, close_eq; reflexivity.
    - destruct (session_peer s !! n) as [p|] eqn:E; cbn [fst]; [apply Hcl|]. rewrite detach_sid_none by exact E. reflexivity.
    - destruct ty; [reflexivity|]. unfold add_session_addr. cbv zeta. destruct (session_peer _ !! n); [rewrite Had|]; reflexivity.
    - destruct (decide _); [reflexivity|]. unfold try_remove_addr. destruct (addr_pid _ !! a); reflexivity.
    - fold (reconnect_unknown a s). destruct (reconnect_frame a s) as [u Hu]. rewrite Hu.
      destruct (match_pid a (with_unknowns u s)) as [p|]; [|reflexivity].
      destruct (peer_connected p (with_unknowns u s)); [reflexivity|]. rewrite Hin. reflexivity.
  Qed.
End Peers.
