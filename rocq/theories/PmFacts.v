(** * Facts about the peer manager model (PeerManager.v): invariants. *)
From Coq Require Import List Bool NArith Lia.
From stdpp Require Import base decidable list gmap sets fin_sets.
From Verif Require Import Base Types CodecProps PeerManager.
Import ListNotations.
Local Open Scope N_scope.

(** ** Set facts *)
Lemma size_diff_singleton (X : gset pid) (p : pid) : p ∈ X -> size (X ∖ {[p]}) = (size X - 1)%nat.
Proof. intros H. rewrite size_difference by set_solver. rewrite size_singleton. reflexivity. Qed.

(** ** Identity-preserving updates of a peer *)
Definition keeps_id (f : peer -> peer) : Prop :=
  forall pe, p_id (f pe) = p_id pe /\ p_user (f pe) = p_user pe /\ p_pubkey (f pe) = p_pubkey pe.

Lemma keeps_id_with_state f : (forall pe, exists st, f pe = with_state pe st) -> keeps_id f.
Proof. intros H pe. destruct (H pe) as [st ->]. repeat split. Qed.
Lemma keeps_add_addr a : keeps_id (add_addr a).
Proof. apply keeps_id_with_state. intros pe. eexists. reflexivity. Qed.
Lemma keeps_remove_addr a : keeps_id (remove_addr a).
Proof. apply keeps_id_with_state. intros pe. eexists. reflexivity. Qed.
Lemma keeps_reset : keeps_id reset_retry.
Proof. apply keeps_id_with_state. intros pe. eexists. reflexivity. Qed.
Lemma keeps_increase c : keeps_id (increase_retry c).
Proof.
  intros pe. unfold increase_retry. destruct (_ <? VALID_ATTEMPT_INTERVAL); repeat split.
Qed.
Definition mark_connected (c : clock) (ip : option proto) (pe : peer) : peer :=
  set_connection_ip ip (update_connect c pe).
Definition mark_disconnected (c : clock) (pe : peer) : peer :=
  set_connection_ip None (update_alive c (update_disconnect c pe)).
Lemma keeps_mark_connected c ip : keeps_id (mark_connected c ip).
Proof. intros pe. repeat split. Qed.
Lemma keeps_mark_disconnected c : keeps_id (mark_disconnected c).
Proof. intros pe. repeat split. Qed.

Lemma lookup_alter_Some {K V} `{Countable K} (f : V -> V) (m : gmap K V) i j x :
  alter f i m !! j = Some x -> exists y, m !! j = Some y /\ (x = y \/ (i = j /\ x = f y)).
Proof.
  destruct (decide (i = j)) as [->|Hne].
  - rewrite lookup_alter. destruct (m !! j) as [y|] eqn:E; cbn; intros H0; [|discriminate].
    injection H0 as <-. eauto.
  - rewrite lookup_alter_ne by exact Hne. intros H0. exists x. auto.
Qed.
Lemma is_Some_alter {K V} `{Countable K} (f : V -> V) (m : gmap K V) i j :
  is_Some (alter f i m !! j) <-> is_Some (m !! j).
Proof.
  destruct (decide (i = j)) as [->|Hne].
  - rewrite lookup_alter. apply fmap_is_Some.
  - rewrite lookup_alter_ne by exact Hne. reflexivity.
Qed.

Lemma insert_addrs_lookup l p m a :
  insert_addrs l p m !! a = if decide (a ∈ l) then Some p else m !! a.
Proof.
  induction l as [|b l IH]; cbn [insert_addrs foldr].
  - destruct (decide (a ∈ [])) as [H|_]; [inversion H|reflexivity].
  - destruct (decide (b = a)) as [->|Hne].
    + rewrite lookup_insert. destruct (decide (a ∈ a :: l)) as [_|H]; [reflexivity|].
      exfalso. apply H. apply elem_of_list_here.
    + rewrite lookup_insert_ne by exact Hne. fold (insert_addrs l p m). rewrite IH.
      destruct (decide (a ∈ l)) as [H|H], (decide (a ∈ b :: l)) as [H'|H']; try reflexivity.
      * exfalso. apply H'. apply elem_of_list_further, H.
      * exfalso. apply elem_of_cons in H' as [->|H']; [apply Hne; reflexivity|exact (H H')].
Qed.
Lemma delete_addrs_lookup l m a :
  delete_addrs l m !! a = if decide (a ∈ l) then None else m !! a.
Proof.
  induction l as [|b l IH]; cbn [delete_addrs foldr].
  - destruct (decide (a ∈ [])) as [H|_]; [inversion H|reflexivity].
  - destruct (decide (b = a)) as [->|Hne].
    + rewrite lookup_delete. destruct (decide (a ∈ a :: l)) as [_|H]; [reflexivity|].
      exfalso. apply H. apply elem_of_list_here.
    + rewrite lookup_delete_ne by exact Hne. fold (delete_addrs l m). rewrite IH.
      destruct (decide (a ∈ l)) as [H|H], (decide (a ∈ b :: l)) as [H'|H']; try reflexivity.
      * exfalso. apply H'. apply elem_of_list_further, H.
      * exfalso. apply elem_of_cons in H' as [->|H']; [apply Hne; reflexivity|exact (H H')].
Qed.

  Lemma diff_twice (X : gset pid) p : X ∖ {[p]} ∖ {[p]} = X ∖ {[p]}.
  Proof. set_solver. Qed.

Section Facts.
  Context (digest : bytes -> hash) (peer_id : pubkey -> pid).
  Notation pubkey_user := (pubkey_user digest).
  Notation our_id := (our_id peer_id).
  Notation process_event := (process_event digest peer_id).
  Notation act := (act digest peer_id).
  Notation reach := (reach digest peer_id).
  Notation start := (start digest peer_id).

  Lemma pubkey_user_ok pk : user_from_pubkey digest pk = Ok (pubkey_user pk).
  Proof.
    unfold PeerManager.pubkey_user. destruct (user_from_pubkey_spec digest pk) as (u & -> & _). reflexivity.
  Qed.

  (** ** The compound operations as records *)
  Lemma close_eq c p s :
    close_peer_session c p s =
    PM (connecting s ∖ {[p]}) (connected s ∖ {[p]}) (addr_pid s) (user_pid s)
       (alter (mark_disconnected c) p (pool s)) (delete p (peer_session s))
       (match peer_session s !! p with Some n => delete n (session_peer s) | None => session_peer s end)
       (boot_addrs s) (unknowns s).
  Proof.
    unfold close_peer_session, disconnect_peer, modify_peer, with_pool, with_conn, with_sessions.
    cbn [peer_session session_peer connecting connected addr_pid user_pid pool boot_addrs unknowns].
    destruct (peer_session s !! p) as [n|] eqn:E; [reflexivity|].
    rewrite delete_notin by exact E. reflexivity.
  Qed.

  Definition removed_users (p : pid) (s : pm) : gmap user_address pid :=
    match pool s !! p with Some pe => delete (p_user pe) (user_pid s) | None => user_pid s end.
  Definition removed_addrs (p : pid) (s : pm) : gmap maddr pid :=
    match pool s !! p with Some pe => delete_addrs (owned_addrs pe) (addr_pid s) | None => addr_pid s end.

  Lemma remove_eq p s :
    remove_peer p s =
    PM (connecting s ∖ {[p]}) (connected s ∖ {[p]}) (removed_addrs p s) (removed_users p s)
       (delete p (pool s)) (peer_session s) (session_peer s) (boot_addrs s) (unknowns s).
  Proof.
    unfold remove_peer, removed_users, removed_addrs, with_pool, with_conn, with_user_pid, with_addr_pid.
    cbn [peer_session session_peer connecting connected addr_pid user_pid pool boot_addrs unknowns].
    destruct (pool s !! p) as [pe|] eqn:E; [reflexivity|]. rewrite (delete_notin _ _ E). reflexivity.
  Qed.


  Definition boot_penalty (c : clock) (pe : peer) : peer :=
    increase_retry c (increase_retry c (reset_retry pe)).

  Lemma cleanly_eq cfg c p s :
    cleanly_remove_peer peer_id cfg c p s =
    let sp := match peer_session s !! p with Some n => delete n (session_peer s) | None => session_peer s end in
    if is_bootstrap_peer peer_id cfg p then
      PM (connecting s ∖ {[p]}) (connected s ∖ {[p]}) (addr_pid s) (user_pid s)
         (alter (fun pe => boot_penalty c (mark_disconnected c pe)) p (pool s))
         (delete p (peer_session s)) sp (boot_addrs s) (unknowns s)
    else
      PM (connecting s ∖ {[p]}) (connected s ∖ {[p]}) (removed_addrs p s) (removed_users p s)
         (delete p (pool s)) (delete p (peer_session s)) sp (boot_addrs s) (unknowns s).
  Proof.
    cbv zeta. unfold cleanly_remove_peer. rewrite close_eq. destruct (is_bootstrap_peer peer_id cfg p).
    - unfold increase_retry_count, i_reset_retry, modify_peer, with_pool.
      cbn [peer_session session_peer connecting connected addr_pid user_pid pool boot_addrs unknowns].
      f_equal. rewrite <- !alter_compose. reflexivity.
    - rewrite remove_eq. unfold removed_addrs, removed_users.
      cbn [peer_session session_peer connecting connected addr_pid user_pid pool boot_addrs unknowns].
      rewrite !diff_twice, lookup_alter, delete_alter. destruct (pool s !! p) as [pe|]; reflexivity.
  Qed.

  Lemma detach_sid_none c n s : session_peer s !! n = None -> detach_session_id c n s = s.
  Proof. intros E. unfold detach_session_id. rewrite E. reflexivity. Qed.

  (** ** Structural invariant *)
  Definition wf_peer (p : pid) (pe : peer) : Prop :=
    p_id pe = p /\ p_user pe = pubkey_user (p_pubkey pe) /\ peer_id (p_pubkey pe) = p.

  Record inv (cfg : config) (s : pm) : Prop := {
    i_disj : connecting s ## connected s;
    i_ps : forall p n, peer_session s !! p = Some n -> p ∈ connected s /\ is_Some (pool s !! p);
    i_conn : forall p, p ∈ connected s -> p = our_id cfg \/ is_Some (peer_session s !! p);
    i_peer : forall p pe, pool s !! p = Some pe -> wf_peer p pe;
    i_user : forall u p, user_pid s !! u = Some p -> exists pe, pool s !! p = Some pe /\ p_user pe = u
  }.

  Lemma wf_keeps f p pe : keeps_id f -> wf_peer p pe -> wf_peer p (f pe).
  Proof.
    intros Hf (H1 & H2 & H3). destruct (Hf pe) as (E1 & E2 & E3). unfold wf_peer. rewrite E1, E2, E3. auto.
  Qed.

  Lemma alter_peer_wf f p s : keeps_id f ->
    (forall q pe, pool s !! q = Some pe -> wf_peer q pe) ->
    forall q pe, alter f p (pool s) !! q = Some pe -> wf_peer q pe.
  Proof.
    intros Hf H q pe Hq. apply lookup_alter_Some in Hq as (y & Hy & [->|[-> ->]]); [auto|].
    apply wf_keeps; auto.
  Qed.
  Lemma alter_user f p s : keeps_id f ->
    (forall u q, user_pid s !! u = Some q -> exists pe, pool s !! q = Some pe /\ p_user pe = u) ->
    forall u q, user_pid s !! u = Some q -> exists pe, alter f p (pool s) !! q = Some pe /\ p_user pe = u.
  Proof.
    intros Hf H u q Hq. destruct (H u q Hq) as (pe & Hpe & Hu).
    destruct (decide (p = q)) as [->|Hne].
    - exists (f pe). rewrite lookup_alter, Hpe. split; [reflexivity|]. destruct (Hf pe) as (_ & -> & _). exact Hu.
    - exists pe. rewrite lookup_alter_ne by exact Hne. auto.
  Qed.

  Lemma inv_modify cfg p f s : keeps_id f -> inv cfg s -> inv cfg (modify_peer p f s).
  Proof.
    intros Hf [H1 H2 H3 H4 H5]. unfold modify_peer, with_pool.
    split; cbn [peer_session session_peer connecting connected addr_pid user_pid pool boot_addrs unknowns].
    - exact H1.
    - intros q n Hq. destruct (H2 q n Hq) as [? ?]. split; [assumption|]. apply is_Some_alter. assumption.
    - exact H3.
    - apply alter_peer_wf; assumption.
    - apply alter_user; assumption.
  Qed.

  (** Changes of the address map, the bootstrap set and the unknown addresses
      are irrelevant to the structural invariant. *)
  Lemma inv_ext cfg s s' : inv cfg s ->
    connecting s' = connecting s -> connected s' = connected s -> user_pid s' = user_pid s ->
    pool s' = pool s -> peer_session s' = peer_session s -> inv cfg s'.
  Proof. intros [H1 H2 H3 H4 H5] E1 E2 E3 E4 E5. split; rewrite ?E1, ?E2, ?E3, ?E4, ?E5; assumption. Qed.

  Lemma inv_close cfg c p s : inv cfg s -> inv cfg (close_peer_session c p s).
  Proof.
    intros [H1 H2 H3 H4 H5]. rewrite close_eq.
    split; cbn [peer_session session_peer connecting connected addr_pid user_pid pool boot_addrs unknowns].
    - set_solver.
    - intros q n Hq. apply lookup_delete_Some in Hq as [Hne Hq]. destruct (H2 q n Hq).
      split; [set_solver|]. apply is_Some_alter. assumption.
    - intros q Hq. apply elem_of_difference in Hq as [Hq Hn]. destruct (H3 q Hq) as [?|?]; [left; assumption|].
      right. rewrite lookup_delete_ne by set_solver. assumption.
    - apply alter_peer_wf; [apply keeps_mark_disconnected|assumption].
    - apply alter_user; [apply keeps_mark_disconnected|assumption].
  Qed.

  Lemma inv_cleanly cfg c p s : inv cfg s -> inv cfg (cleanly_remove_peer peer_id cfg c p s).
  Proof.
    intros H. unfold cleanly_remove_peer. destruct (is_bootstrap_peer peer_id cfg p).
    - apply inv_modify; [apply keeps_increase|]. apply inv_modify; [apply keeps_increase|].
      apply inv_modify; [apply keeps_reset|]. apply inv_close, H.
    - pose proof (inv_close cfg c p s H) as [H1 H2 H3 H4 H5]. set (s1 := close_peer_session c p s) in *.
      rewrite remove_eq. unfold removed_users.
      split; cbn [peer_session session_peer connecting connected addr_pid user_pid pool boot_addrs unknowns].
      + set_solver.
      + intros q n Hq. assert (q <> p) as Hne.
        { intros ->. subst s1. rewrite close_eq in Hq. cbn [peer_session] in Hq. rewrite lookup_delete in Hq. discriminate. }
        destruct (H2 q n Hq). split; [set_solver|]. rewrite lookup_delete_ne by congruence. assumption.
      + intros q Hq. apply elem_of_difference in Hq as [Hq _]. auto.
      + intros q pe Hq. apply lookup_delete_Some in Hq as [_ Hq]. auto.
      + intros u q Hq. assert (user_pid s1 !! u = Some q /\ forall pe, pool s1 !! p = Some pe -> p_user pe <> u) as [Hq' Hu].
        { destruct (pool s1 !! p) as [pe|].
          - apply lookup_delete_Some in Hq as [Hne Hq]. split; [assumption|]. intros pe' [= <-]. assumption.
          - split; [assumption|]. discriminate. }
        destruct (H5 u q Hq') as (pe & Hpe & Hue). exists pe. split; [|assumption].
        rewrite lookup_delete_ne; [assumption|]. intros <-. exact (Hu pe Hpe Hue).
  Qed.

  Lemma inv_increase cfg c p s : inv cfg s -> inv cfg (increase_peer_retry peer_id cfg c p s).
  Proof.
    intros H. unfold increase_peer_retry.
    assert (inv cfg (increase_retry_count c p s)) by (apply inv_modify; [apply keeps_increase|assumption]).
    destruct (reach_max_retry p (increase_retry_count c p s)); [apply inv_cleanly|]; assumption.
  Qed.

  Lemma inv_detach cfg c p s : inv cfg s -> inv cfg (detach_peer_session peer_id cfg c p s).
  Proof.
    intros H. unfold detach_peer_session. pose proof (inv_close cfg c p s H) as H1.
    destruct (pool (close_peer_session c p s) !! p) as [pe|]; [|exact H1].
    destruct (alive (p_state pe) <? ALIVE_RETRY_INTERVAL); [apply inv_increase|]; exact H1.
  Qed.

  Lemma inv_add_peer_addr cfg p a s : inv cfg s -> inv cfg (add_peer_addr p a s).
  Proof.
    intros H. unfold add_peer_addr. destruct (pool s !! p); [|exact H].
    apply inv_modify; [apply keeps_add_addr|]. eapply inv_ext; [exact H|reflexivity..].
  Qed.
  Lemma inv_remove_peer_addr cfg p a s : inv cfg s -> inv cfg (remove_peer_addr p a s).
  Proof.
    intros H. unfold remove_peer_addr.
    apply inv_modify; [apply keeps_remove_addr|]. eapply inv_ext; [exact H|reflexivity..].
  Qed.
  Lemma inv_unknowns cfg u s : inv cfg s -> inv cfg (with_unknowns u s).
  Proof. intros H. eapply inv_ext; [exact H|reflexivity..]. Qed.

  Lemma inv_add_new cfg pe s : inv cfg s -> wf_peer (p_id pe) pe ->
    (forall pe', pool s !! p_id pe = Some pe' -> p_user pe' = p_user pe) ->
    inv cfg (i_add_peer pe s).
  Proof.
    intros [H1 H2 H3 H4 H5] Hwf Hsame. unfold i_add_peer, with_pool, with_user_pid, with_addr_pid.
    split; cbn [peer_session session_peer connecting connected addr_pid user_pid pool boot_addrs unknowns].
    - exact H1.
    - intros q n Hq. destruct (H2 q n Hq) as [? ?]. split; [assumption|].
      destruct (decide (p_id pe = q)) as [<-|Hne]; [rewrite lookup_insert|rewrite lookup_insert_ne by exact Hne]; eauto.
    - exact H3.
    - intros q pe' Hq. apply lookup_insert_Some in Hq as [[<- <-]|[_ Hq]]; [exact Hwf|auto].
    - intros u q Hq. apply lookup_insert_Some in Hq as [[<- <-]|[Hne Hq]].
      + exists pe. rewrite lookup_insert. auto.
      + destruct (H5 u q Hq) as (pe' & Hpe' & Hu). destruct (decide (p_id pe = q)) as [<-|Hne'].
        * exfalso. apply Hne. rewrite <- (Hsame pe' Hpe'). exact Hu.
        * exists pe'. rewrite lookup_insert_ne by exact Hne'. auto.
  Qed.

  Lemma wf_from_pair c x : wf_peer (peer_id (fst x)) (from_pair digest peer_id c x).
  Proof. repeat split. Qed.
  Lemma wf_peer_new c pk : wf_peer (peer_id pk) (peer_new digest peer_id c pk).
  Proof. repeat split. Qed.

  Lemma add_peer_pool c pk oa s :
    is_Some (pool (add_peer digest peer_id c pk oa s) !! peer_id pk) /\
    forall p, is_Some (pool s !! p) -> is_Some (pool (add_peer digest peer_id c pk oa s) !! p).
  Proof.
    destruct oa as [a|]; cbn [add_peer].
    - split; [|intros p Hp]; cbn.
      + rewrite lookup_insert. eauto.
      + destruct (decide (peer_id pk = p)) as [<-|Hne]; [rewrite lookup_insert|rewrite lookup_insert_ne by exact Hne]; eauto.
    - split; [|intros p Hp]; cbn.
      + rewrite lookup_insert. eauto.
      + destruct (decide (peer_id pk = p)) as [<-|Hne]; [rewrite lookup_insert|rewrite lookup_insert_ne by exact Hne]; eauto.
  Qed.

  Definition attached (c : clock) (pk : pubkey) (a : maddr) (ty : session_type) (s : pm) : pm :=
    let p := peer_id pk in
    let listen := match ty with Inbound => None | Outbound => Some a end in
    match pool s !! p with
    | None => add_peer digest peer_id c pk listen s
    | Some _ => match listen with Some a => add_peer_addr p a s | None => s end
    end.

  Lemma attach_eq c pk n a ty s :
    attach_peer_session digest peer_id c pk n a ty s =
    let s1 := attached c pk a ty s in
    PM (connecting s1 ∖ {[peer_id pk]}) ({[peer_id pk]} ∪ connected s1) (addr_pid s1) (user_pid s1)
       (alter (mark_connected c (multi_addr_ip a)) (peer_id pk) (pool s1))
       (<[peer_id pk := n]> (peer_session s1)) (<[n := peer_id pk]> (session_peer s1))
       (boot_addrs s1) (unknowns s1).
  Proof. reflexivity. Qed.

  Lemma attached_frame c pk a ty s :
    connecting (attached c pk a ty s) = connecting s /\ connected (attached c pk a ty s) = connected s /\
    peer_session (attached c pk a ty s) = peer_session s /\
    session_peer (attached c pk a ty s) = session_peer s /\ boot_addrs (attached c pk a ty s) = boot_addrs s.
  Proof.
    unfold attached, add_peer_addr. destruct (pool s !! peer_id pk) eqn:E; destruct ty; try (repeat split; fail); cbn; rewrite ?E; repeat split.
  Qed.
  Lemma attached_pool c pk a ty s :
    is_Some (pool (attached c pk a ty s) !! peer_id pk) /\
    forall p, is_Some (pool s !! p) -> is_Some (pool (attached c pk a ty s) !! p).
  Proof.
    unfold attached, add_peer_addr. destruct (pool s !! peer_id pk) as [pe|] eqn:E.
    - destruct ty; (split; [|intros p Hp]); cbn; rewrite ?E; cbn.
      + eauto.
      + exact Hp.
      + rewrite lookup_alter, E. eauto.
      + apply is_Some_alter, Hp.
    - apply add_peer_pool.
  Qed.
  Lemma inv_attached cfg c pk a ty s : inv cfg s -> inv cfg (attached c pk a ty s).
  Proof.
    intros H. unfold attached. destruct (pool s !! peer_id pk) as [pe|] eqn:E.
    - destruct ty; [exact H|apply inv_add_peer_addr, H].
    - destruct ty; cbn [add_peer]; apply inv_add_new; try exact H; try (apply inv_unknowns, H);
        try (apply wf_peer_new); try (apply (wf_from_pair c (pk, a)));
        intros pe' Hpe'; cbn in Hpe'; rewrite E in Hpe'; discriminate.
  Qed.

  Lemma inv_attach cfg c pk n a ty s : inv cfg s -> inv cfg (attach_peer_session digest peer_id c pk n a ty s).
  Proof.
    intros H. rewrite attach_eq. cbv zeta. pose proof (inv_attached cfg c pk a ty s H) as [H1 H2 H3 H4 H5].
    pose proof (attached_pool c pk a ty s) as [Hp _]. set (s1 := attached c pk a ty s) in *.
    split; cbn [peer_session session_peer connecting connected addr_pid user_pid pool boot_addrs unknowns].
    - set_solver.
    - intros q m Hq. rewrite is_Some_alter. apply lookup_insert_Some in Hq as [[<- <-]|[Hne Hq]].
      + split; [set_solver|exact Hp].
      + destruct (H2 q m Hq). split; [set_solver|assumption].
    - intros q Hq. destruct (decide (peer_id pk = q)) as [<-|Hne]; [right; rewrite lookup_insert; eauto|].
      rewrite lookup_insert_ne by exact Hne. apply H3. set_solver.
    - apply alter_peer_wf; [apply keeps_mark_connected|assumption].
    - apply alter_user; [apply keeps_mark_connected|assumption].
  Qed.

  Lemma inv_identify cfg a s : inv cfg s -> inv cfg (identify_addr a s).
  Proof.
    intros H. unfold identify_addr. destruct (match_pid a s) as [p|].
    - destruct (peer_connected p s); [apply inv_add_peer_addr|]; exact H.
    - destruct (unknowns s !! a); [exact H|apply inv_unknowns, H].
  Qed.

  Lemma fold_left_inv {A} (f : pm -> A -> pm) (P : pm -> Prop) l s :
    (forall s x, P s -> P (f s x)) -> P s -> P (fold_left f l s).
  Proof. intros Hf. revert s. induction l as [|x l IH]; intros s H; cbn; [exact H|auto]. Qed.

  Lemma inv_try_remove cfg a s : inv cfg s -> inv cfg (try_remove_addr a s).
  Proof. intros H. unfold try_remove_addr. destruct (addr_pid s !! a); [apply inv_remove_peer_addr|]; exact H. Qed.

  Definition reconnect_unknown (a : maddr) (s : pm) : pm :=
    match unknowns s !! a with
    | Some u =>
        let u' := Unknown false (u_retry u + 1) in
        if u_reach_max_retry u' then with_unknowns (delete a (unknowns s)) s
        else with_unknowns (<[a := u']> (unknowns s)) s
    | None => s
    end.
  Lemma reconnect_frame a s : exists u, reconnect_unknown a s = with_unknowns u s.
  Proof.
    unfold reconnect_unknown. destruct (unknowns s !! a) as [u|].
    - cbv zeta. destruct (u_reach_max_retry _); eauto.
    - exists (unknowns s). destruct s; reflexivity.
  Qed.

  Lemma inv_event cfg c s e : inv cfg s -> inv cfg (fst (process_event cfg c s e)).
  Proof.
    intros H. destruct e as [pk n a ty|p n ty|p|p|n|p|a|l|p l|ty n a|a|a|a|a|us msg pri]; cbn [PeerManager.process_event fst].
    - apply inv_attach, H.
    - apply inv_detach, H.
    - apply inv_modify; [apply keeps_reset|exact H].
    - apply inv_cleanly, H.
    - destruct (session_peer s !! n) as [p|] eqn:E; cbn [fst]; [apply inv_cleanly, H|].
      rewrite detach_sid_none by exact E. exact H.
    - apply inv_increase, H.
    - apply inv_identify, H.
    - apply fold_left_inv; [|exact H]. intros. apply inv_identify. assumption.
    - apply fold_left_inv; [|exact H]. intros. apply inv_add_peer_addr. assumption.
    - destruct ty; [exact H|]. unfold add_session_addr. cbv zeta.
      destruct (session_peer _ !! n); [apply inv_add_peer_addr|]; apply inv_unknowns, H.
    - destruct (decide _); [apply inv_unknowns, H|]. apply inv_try_remove, inv_unknowns, H.
    - fold (reconnect_unknown a s). destruct (reconnect_frame a s) as [u Hu]. rewrite Hu.
      destruct (match_pid a (with_unknowns u s)) as [p|]; [|apply inv_unknowns, H].
      destruct (peer_connected p (with_unknowns u s)); [|apply inv_increase]; apply inv_unknowns, H.
    - apply inv_add_peer_addr, H.
    - apply inv_remove_peer_addr, H.
    - exact H.
  Qed.

  Lemma inv_connect cfg p s : inv cfg s -> inv cfg (connect_peer p s).
  Proof.
    intros [H1 H2 H3 H4 H5]. unfold connect_peer, peer_connected, with_conn.
    case_bool_decide as Hc; split;
      cbn [peer_session session_peer connecting connected addr_pid user_pid pool boot_addrs unknowns]; try assumption.
    set_solver.
  Qed.

  Lemma inv_act cfg c s a : inv cfg s -> inv cfg (fst (act cfg c s a)).
  Proof.
    intros H. destruct a as [e|picks unks]; cbn [PeerManager.act]; [apply inv_event, H|].
    cbn [routine fst]. apply inv_unknowns. apply fold_left_inv; [|exact H]. intros. apply inv_connect. assumption.
  Qed.

  (** *** At the start.  [keys]: the public keys involved. *)
  Definition distinct_ids (keys : list pubkey) : Prop :=
    forall k1 k2, In k1 keys -> In k2 keys -> peer_id k1 = peer_id k2 -> k1 = k2.
  Definition distinct_users (keys : list pubkey) : Prop :=
    forall k1 k2, In k1 keys -> In k2 keys -> pubkey_user k1 = pubkey_user k2 -> k1 = k2.
  Definition start_keys (cfg : config) (saved : list (pubkey * peer_state)) : list pubkey :=
    our_pubkey cfg :: map fst saved ++ map fst (bootstraps cfg).

  (** the pool only holds keys of the list *)
  Definition pool_keys (keys : list pubkey) (s : pm) : Prop :=
    forall p pe, pool s !! p = Some pe -> In (p_pubkey pe) keys.

  Lemma inv_new cfg c : inv cfg (pm_new digest peer_id cfg c).
  Proof.
    split; cbn [pm_new peer_session session_peer connecting connected addr_pid user_pid pool boot_addrs unknowns].
    - set_solver.
    - intros p n Hp. rewrite lookup_empty in Hp. discriminate.
    - intros p Hp. left. set_solver.
    - intros p pe Hp. apply lookup_singleton_Some in Hp as [<- <-]. apply wf_peer_new.
    - intros u p Hu. apply lookup_singleton_Some in Hu as [<- <-]. eexists. rewrite lookup_singleton. split; reflexivity.
  Qed.

  Lemma inv_insert_peer cfg c pk st keys s : distinct_ids keys -> In pk keys ->
    inv cfg s /\ pool_keys keys s -> inv cfg (insert_peer digest peer_id c (pk, st) s) /\ pool_keys keys (insert_peer digest peer_id c (pk, st) s).
  Proof.
    intros Hd Hin [[H1 H2 H3 H4 H5] Hk].
    set (pe0 := match pool s !! peer_id pk with Some pe => pe | None => peer_new digest peer_id c pk end).
    assert (p_pubkey pe0 = pk /\ wf_peer (peer_id pk) pe0) as [Epk Hwf].
    { subst pe0. destruct (pool s !! peer_id pk) as [pe|] eqn:E; [|split; [reflexivity|apply wf_peer_new]].
      split; [|apply H4, E]. pose proof (H4 _ _ E) as (_ & _ & E3). apply Hd; [apply (Hk _ _ E)|exact Hin|exact E3]. }
    split.
    - split; cbn [insert_peer with_pool with_addr_pid with_user_pid peer_session session_peer connecting connected addr_pid user_pid pool boot_addrs unknowns]; fold pe0.
      + exact H1.
      + intros q n Hq. destruct (H2 q n Hq) as [? ?]. split; [assumption|].
        destruct (decide (peer_id pk = q)) as [<-|Hne]; [rewrite lookup_insert|rewrite lookup_insert_ne by exact Hne]; eauto.
      + exact H3.
      + intros q pe' Hq. apply lookup_insert_Some in Hq as [[<- <-]|[_ Hq]]; [exact Hwf|auto].
      + intros u q Hq. apply lookup_insert_Some in Hq as [[<- <-]|[Hne Hq]].
        * exists (with_state pe0 st). rewrite lookup_insert. split; [reflexivity|]. cbn.
          destruct Hwf as (_ & -> & _). rewrite Epk. reflexivity.
        * destruct (H5 u q Hq) as (pe' & Hpe' & Hu). destruct (decide (peer_id pk = q)) as [<-|Hne'].
          -- exfalso. apply Hne. rewrite <- Hu. destruct (H4 _ _ Hpe') as (_ & -> & E3).
             f_equal. symmetry. apply Hd; [apply (Hk _ _ Hpe')|exact Hin|exact E3].
          -- exists pe'. rewrite lookup_insert_ne by exact Hne'. auto.
    - intros q pe' Hq. cbn in Hq. fold pe0 in Hq. apply lookup_insert_Some in Hq as [[<- <-]|[_ Hq]].
      + cbn. rewrite Epk. exact Hin.
      + exact (Hk _ _ Hq).
  Qed.

  Lemma inv_insert_peers cfg c l keys s : distinct_ids keys -> (forall x, In x l -> In (fst x) keys) ->
    inv cfg s /\ pool_keys keys s -> inv cfg (insert_peers digest peer_id c l s) /\ pool_keys keys (insert_peers digest peer_id c l s).
  Proof.
    intros Hd. unfold insert_peers. revert s. induction l as [|[pk st] l IH]; intros s Hl H; [exact H|].
    cbn [fold_left]. apply IH; [intros x Hx; apply Hl; right; exact Hx|].
    apply inv_insert_peer; [exact Hd|apply (Hl (pk, st)); left; reflexivity|exact H].
  Qed.

  Lemma connect_pool p s : pool (connect_peer p s) = pool s.
  Proof. unfold connect_peer. destruct (peer_connected p s); reflexivity. Qed.

  Lemma inv_boot cfg c l keys s : distinct_ids keys -> (forall x, In x l -> In (fst x) keys) ->
    inv cfg s /\ pool_keys keys s ->
    let f := fun s pe => connect_peer (p_id pe) (i_add_peer pe s) in
    inv cfg (fold_left f (map (from_pair digest peer_id c) l) s) /\
    pool_keys keys (fold_left f (map (from_pair digest peer_id c) l) s).
  Proof.
    intros Hd Hl H f. revert s H. induction l as [|x l IH]; intros s H; [exact H|].
    cbn [map fold_left]. apply IH; [intros y Hy; apply Hl; right; exact Hy|].
    destruct H as [H Hk]. unfold f at 1 2. split.
    - apply inv_connect, inv_add_new; [exact H|apply wf_from_pair|].
      intros pe' Hpe'. destruct (i_peer _ _ H _ _ Hpe') as (_ & -> & E3). cbn [from_pair p_user].
      f_equal. apply Hd; [exact (Hk _ _ Hpe')|apply Hl; left; reflexivity|exact E3].
    - intros q pe' Hq. rewrite connect_pool in Hq. cbn in Hq. apply lookup_insert_Some in Hq as [[<- <-]|[_ Hq]].
      + cbn. apply Hl. left. reflexivity.
      + exact (Hk _ _ Hq).
  Qed.

  Lemma inv_start cfg c saved : distinct_ids (start_keys cfg saved) ->
    inv cfg (start cfg c saved) /\ pool_keys (start_keys cfg saved) (start cfg c saved).
  Proof.
    intros Hd. unfold PeerManager.start.
    set (l := map (fun '(pk, st) => (pk, reloaded c st)) saved).
    assert (inv cfg (insert_peers digest peer_id c l (pm_new digest peer_id cfg c)) /\
            pool_keys (start_keys cfg saved) (insert_peers digest peer_id c l (pm_new digest peer_id cfg c))) as H.
    { apply inv_insert_peers; [exact Hd| |split; [apply inv_new|]].
      - intros x Hx. apply in_map_iff in Hx as ([pk st] & <- & Hx). right. apply in_or_app. left.
        cbn. apply in_map_iff. exists (pk, st). auto.
      - intros p pe Hp. cbn in Hp. apply lookup_singleton_Some in Hp as [<- <-]. left. reflexivity. }
    destruct (bootstraps cfg) as [|b bs] eqn:Eb; [exact H|]. cbv beta iota. clear Eb b bs.
    unfold bootstrap, boot_peers. cbn [fst].
    unshelve epose proof (inv_boot cfg c (bootstraps cfg) (start_keys cfg saved) (insert_peers digest peer_id c l (pm_new digest peer_id cfg c)) Hd _ H) as [Ha Hb].
    { intros x Hx. right. apply in_or_app. right. apply in_map, Hx. }
    split.
    - eapply inv_ext; [exact Ha|reflexivity..].
    - exact Hb.
  Qed.

  Lemma inv_reach cfg s0 h s : inv cfg s0 -> reach cfg s0 h s -> inv cfg s.
  Proof. intros H0. induction 1 as [|h s c a _ IH _]; [exact H0|]. apply inv_act, IH. Qed.
End Facts.
