(** * The statements behind C86-C88 *)
From Coq Require Import List Bool NArith Lia.
From stdpp Require Import base decidable list gmap sets fin_sets.
From Verif Require Import Base Types PeerManager PmSpec PmFacts PmMore PmPeers PmProps PmProps3 Keeper KeeperFacts.
Import ListNotations.
Local Open Scope N_scope.

(** Addresses the environment tells the node to use: those of the sessions it
    opened itself, those other peers or the transport report. *)
Definition told_addrs (l : label) : list maddr :=
  match l with
  | LReport (TEvent (SessionOpen x)) => match sx_ty x with Outbound => [sx_addr x] | Inbound => [] end
  | LReport (TEvent (ListenStarted a)) => [a]
  | LReport (TError (DialerError ConnectSelf a)) | LReport (TError (ListenError ConnectSelf a)) => [a]
  | LReport (TError (DialerError (RepeatedConn _) a)) => [a]
  | LReport (TDisc (AddNewAddr a)) => [a]
  | LReport (TDisc (AddNewAddrs l)) => l
  | LReport (TIdent (AddRemoteListenAddrs _ l)) => l
  | _ => []
  end.
Definition known_addrs (cfg : config) (saved : list (pubkey * peer_state)) (ls : list label) : list maddr :=
  map snd (bootstraps cfg) ++ flat_map (fun x => elements (addr_set (snd x))) saved ++ flat_map told_addrs ls.

Section KeeperProps.
  Context (digest : bytes -> hash) (peer_id : pubkey -> pid).
  Notation act := (act digest peer_id).
  Notation reach := (reach digest peer_id).
  Notation start := (start digest peer_id).
  Notation is_boot := (is_bootstrap_peer peer_id).
  Notation net_run := (net_run digest peer_id).
  Notation net_step := (net_step digest peer_id).
  Notation net_start := (net_start digest peer_id).
  Notation reports := (reports peer_id).

  (** ** Addresses *)
  Definition event_addrs (e : pm_event) : list maddr :=
    match e with
    | AttachPeerSession _ _ a Outbound => [a]
    | DiscoverAddr a | RepeatedConnection Dialer _ a | AddListenAddr a => [a]
    | DiscoverMultiAddrs l | IdentifiedAddrs _ l => l
    | _ => []
    end.
  Lemma reports_addrs e a : In a (flat_map event_addrs (reports e)) -> In a (told_addrs (LReport e)).
  Proof.
    destruct e as [[]| [] | [] | [] | []];
      cbn [Keeper.reports handle_error handle_event ping_report disc_report ident_report told_addrs flat_map event_addrs app];
      rewrite ?app_nil_r; try tauto.
    1,2: destruct e; cbn; tauto.
    1: destruct proto_name.
    all: unfold with_pid; destruct (sx_pk x); cbn; try tauto.
    all: destruct (sx_ty x); cbn; tauto.
  Qed.

  Definition addrs_in (K : maddr -> Prop) (s : pm) : Prop :=
    (forall p pe a, pool s !! p = Some pe -> a ∈ p_addrs pe -> K a) /\
    (forall a u, unknowns s !! a = Some u -> K a).

  Lemma keeps_penalty c pe : p_addrs (boot_penalty c (mark_disconnected c pe)) = p_addrs pe.
  Proof. unfold boot_penalty. rewrite !increase_addrs. reflexivity. Qed.

  Lemma addrs_modify K p f s : (forall pe, p_addrs (f pe) ⊆ p_addrs pe) -> addrs_in K s -> addrs_in K (modify_peer p f s).
  Proof.
    intros Hf [H1 H2]. split; [|exact H2]. intros q pe a Hq Ha. cbn in Hq.
    apply lookup_alter_Some in Hq as (y & Hy & [->|[-> ->]]); [exact (H1 _ _ _ Hy Ha)|]. apply (H1 _ _ _ Hy), (Hf y), Ha.
  Qed.
  Lemma addrs_close K c p s : addrs_in K s -> addrs_in K (close_peer_session c p s).
  Proof.
    intros [H1 H2]. rewrite close_eq. split; [|exact H2]. intros q pe a Hq Ha. cbn in Hq.
    apply lookup_alter_Some in Hq as (y & Hy & [->|[-> ->]]); exact (H1 _ _ _ Hy Ha).
  Qed.
  Lemma addrs_cleanly K cfg c p s : addrs_in K s -> addrs_in K (cleanly_remove_peer peer_id cfg c p s).
  Proof.
    intros [H1 H2]. rewrite cleanly_eq. cbv zeta. destruct (is_boot cfg p); (split; [|exact H2]); intros q pe a Hq Ha; cbn [pool] in Hq.
    - apply lookup_alter_Some in Hq as (y & Hy & [->|[-> ->]]); [exact (H1 _ _ _ Hy Ha)|].
      rewrite keeps_penalty in Ha. exact (H1 _ _ _ Hy Ha).
    - apply lookup_delete_Some in Hq as [_ Hq]. exact (H1 _ _ _ Hq Ha).
  Qed.
  Lemma addrs_increase K cfg c p s : addrs_in K s -> addrs_in K (increase_peer_retry peer_id cfg c p s).
  Proof.
    intros H. unfold increase_peer_retry.
    assert (addrs_in K (increase_retry_count c p s)) as H1.
    { apply addrs_modify; [|exact H]. intros pe. rewrite increase_addrs. reflexivity. }
    destruct (reach_max_retry p (increase_retry_count c p s)); [apply addrs_cleanly|]; exact H1.
  Qed.
  Lemma addrs_add (K : maddr -> Prop) p a s : K a -> addrs_in K s -> addrs_in K (add_peer_addr p a s).
  Proof.
    intros Ka [H1 H2]. unfold add_peer_addr. destruct (pool s !! p); [|split; assumption].
    split; [|exact H2]. intros q pe b Hq Hb. cbn in Hq.
    apply lookup_alter_Some in Hq as (y & Hy & [->|[-> ->]]); [exact (H1 _ _ _ Hy Hb)|].
    unfold p_addrs, add_addr in Hb. cbn in Hb. apply elem_of_union in Hb as [Hb|Hb].
    - apply elem_of_singleton in Hb as ->. exact Ka.
    - exact (H1 _ _ _ Hy Hb).
  Qed.
  Lemma addrs_identify (K : maddr -> Prop) a s : K a -> addrs_in K s -> addrs_in K (identify_addr a s).
  Proof.
    intros Ka H. unfold identify_addr. destruct (match_pid a s) as [p|].
    - destruct (peer_connected p s); [apply addrs_add; assumption|exact H].
    - destruct (unknowns s !! a); [exact H|]. destruct H as [H1 H2]. split; [exact H1|].
      intros b u Hb. cbn in Hb. apply lookup_insert_Some in Hb as [[<- _]|[_ Hb]]; [exact Ka|exact (H2 _ _ Hb)].
  Qed.
  Lemma addrs_forget K a s : addrs_in K s -> addrs_in K (with_unknowns (delete a (unknowns s)) s).
  Proof. intros [H1 H2]. split; [exact H1|]. intros b u Hb. cbn in Hb. apply lookup_delete_Some in Hb as [_ Hb]. exact (H2 _ _ Hb). Qed.
  Lemma addrs_reconnect K a s : addrs_in K s -> addrs_in K (reconnect_unknown a s).
  Proof.
    intros H. unfold reconnect_unknown. destruct (unknowns s !! a) as [u|] eqn:E; [|exact H]. cbv zeta.
    destruct (u_reach_max_retry _); [apply addrs_forget, H|]. destruct H as [H1 H2]. split; [exact H1|].
    intros b v Hb. cbn in Hb. apply lookup_insert_Some in Hb as [[<- _]|[_ Hb]]; [exact (H2 _ _ E)|exact (H2 _ _ Hb)].
  Qed.
  Lemma addrs_fold {A} (K : maddr -> Prop) (f : pm -> A -> pm) l s :
    (forall s x, In x l -> addrs_in K s -> addrs_in K (f s x)) -> addrs_in K s -> addrs_in K (fold_left f l s).
  Proof.
    revert s. induction l as [|x l IH]; intros s Hf H; [exact H|]. cbn. apply IH.
    - intros s1 y Hy. apply Hf. right. exact Hy.
    - apply Hf; [left; reflexivity|exact H].
  Qed.

  Lemma addrs_event (K : maddr -> Prop) cfg c s e : (forall a, In a (event_addrs e) -> K a) -> addrs_in K s ->
    addrs_in K (fst (process_event digest peer_id cfg c s e)).
  Proof.
    intros HK H.
    destruct e as [pk n a ty|p n ty|p|p|n|p|a|l|p l|ty n a|a|a|a|a|us msg pri]; cbn [process_event fst].
    - rewrite attach_eq. cbv zeta.
      assert (addrs_in K (attached digest peer_id c pk a ty s)) as [H1 H2].
      { unfold attached. destruct (pool s !! peer_id pk) as [pe|] eqn:E.
        - destruct ty; [exact H|apply addrs_add; [apply HK; left; reflexivity|exact H]].
        - destruct H as [H1 H2]. destruct ty; cbn [add_peer].
          + split; [|exact H2]. intros q pe b Hq Hb. cbn in Hq. apply lookup_insert_Some in Hq as [[<- <-]|[_ Hq]]; [|exact (H1 _ _ _ Hq Hb)].
            cbn in Hb. set_solver.
          + split.
            * intros q pe b Hq Hb. cbn in Hq. apply lookup_insert_Some in Hq as [[<- <-]|[_ Hq]]; [|exact (H1 _ _ _ Hq Hb)].
              cbn in Hb. apply HK. left. set_solver.
            * intros b u Hb. cbn in Hb. apply lookup_delete_Some in Hb as [_ Hb]. exact (H2 _ _ Hb). }
      split; [|exact H2]. intros q pe b Hq Hb. cbn [pool] in Hq.
      apply lookup_alter_Some in Hq as (y & Hy & [->|[<- ->]]); exact (H1 _ _ _ Hy Hb).
    - unfold detach_peer_session. cbv zeta. pose proof (addrs_close K c p s H) as H1.
      destruct (pool (close_peer_session c p s) !! p) as [pe|]; [|exact H1].
      destruct (alive (p_state pe) <? ALIVE_RETRY_INTERVAL); [apply addrs_increase|]; exact H1.
    - apply addrs_modify; [reflexivity|exact H].
    - apply addrs_cleanly, H.
    - destruct (session_peer s !! n) as [p|] eqn:E; cbn [fst]; [apply addrs_cleanly, H|].
      rewrite detach_sid_none by exact E. exact H.
    - apply addrs_increase, H.
    - apply addrs_identify; [apply HK; left; reflexivity|exact H].
    - apply addrs_fold; [|exact H]. intros s1 x Hx. apply addrs_identify, HK, Hx.
    - apply addrs_fold; [|exact H]. intros s1 x Hx. apply addrs_add, HK, Hx.
    - destruct ty; [exact H|]. unfold add_session_addr. cbv zeta.
      destruct (session_peer _ !! n); [|apply addrs_forget, H]. apply addrs_add; [apply HK; left; reflexivity|apply addrs_forget, H].
    - pose proof (addrs_forget K a s H) as H1. destruct (decide _); [exact H1|]. unfold try_remove_addr.
      destruct (addr_pid _ !! a) as [p|]; [|exact H1]. unfold remove_peer_addr. apply addrs_modify; [|exact H1].
      intros pe b Hb. unfold p_addrs, remove_addr in *. cbn in Hb. set_solver.
    - fold (reconnect_unknown a s). pose proof (addrs_reconnect K a s H) as H1.
      destruct (match_pid a (reconnect_unknown a s)) as [p|]; [|exact H1].
      destruct (peer_connected p (reconnect_unknown a s)); [|apply addrs_increase]; exact H1.
    - apply addrs_add; [apply HK; left; reflexivity|exact H].
    - unfold remove_peer_addr. apply addrs_modify; [|exact H].
      intros pe b Hb. unfold p_addrs, remove_addr in *. cbn in Hb. set_solver.
    - exact H.
  Qed.

  Lemma mark_lookup l m a u : mark_connecting l m !! a = Some u -> exists u', m !! a = Some u'.
  Proof.
    revert u. induction l as [|x l IH]; intros u; cbn [mark_connecting foldr]; [eauto|]. intros H.
    apply lookup_alter_Some in H as (y & Hy & _). exact (IH _ Hy).
  Qed.
  Lemma addrs_routine K s picks unks : addrs_in K s -> addrs_in K (fst (routine s picks unks)).
  Proof.
    intros [H1 H2]. cbn [routine fst]. split.
    - intros q pe a Hq. cbn in Hq. rewrite connect_fold_pool in Hq. exact (H1 _ _ _ Hq).
    - intros a u Hu. cbn in Hu. apply mark_lookup in Hu as [u' Hu].
      assert (unknowns (fold_left (fun s p => connect_peer p s) picks s) = unknowns s) as Eu.
      { clear. revert s. induction picks as [|p l IH]; intros s; [reflexivity|]. cbn. rewrite IH. unfold connect_peer.
        destruct (peer_connected p s); reflexivity. }
      rewrite Eu in Hu. exact (H2 _ _ Hu).
  Qed.

  (** what is dialled is in the tables *)
  Lemma dialled_event K cfg c s e addrs a : addrs_in K s -> In (Connect addrs) (fst (snd (process_event digest peer_id cfg c s e))) ->
    In a addrs -> K a.
  Proof.
    intros [H1 H2] Hin Ha. destruct e; try (destruct Hin; fail); cbn [process_event fst snd] in Hin.
    - destruct (session_peer s !! s0); destruct Hin.
    - cbv zeta in Hin. cbn [fst snd] in Hin. destruct (peer_session _ !! p) as [n|]; [destruct Hin as [Hin|[]]; discriminate|destruct Hin].
    - unfold route_multi_users_message in Hin. cbn [fst] in Hin. destruct Hin as [Hin|[Hin|[]]]; [discriminate|]. injection Hin as <-.
      apply in_concat in Ha as (l & Hl & Ha). apply in_map_iff in Hl as (pe & <- & Hpe). apply in_flat_map in Hpe as (u & _ & Hpe).
      unfold user_peer in Hpe. destruct (user_pid s !! u) as [p|]; [|destruct Hpe]. destruct (pool s !! p) as [pe'|] eqn:E; [|destruct Hpe].
      destruct (peer_session s !! p_id pe'); [destruct Hpe|]. destruct Hpe as [->|[]].
      apply (H1 _ _ a E). apply elem_of_elements, elem_of_list_In, Ha.
  Qed.
  Lemma dialled_routine K cfg c s picks unks addrs a : addrs_in K s -> routine_ok cfg c s picks unks ->
    In (Connect addrs) (fst (snd (routine s picks unks))) -> In a addrs -> K a.
  Proof.
    intros [H1 H2] [_ (_ & Hok & _)] Hin Ha. cbn [routine fst snd] in Hin. cbv zeta in Hin.
    assert (addrs = concat (map (fun p => peer_addrs p s) picks) ++ unks) as ->.
    { destruct (concat _ ++ unks); [destruct Hin|]. destruct Hin as [Hin|[]]. injection Hin as <-. reflexivity. }
    apply in_app_or in Ha as [Ha|Ha].
    - apply in_concat in Ha as (l & Hl & Ha). apply in_map_iff in Hl as (p & <- & _). unfold peer_addrs in Ha.
      destruct (pool s !! p) as [pe|] eqn:E; [|destruct Ha]. apply (H1 _ _ a E), elem_of_elements, elem_of_list_In, Ha.
    - apply Hok in Ha. unfold fresh_unknowns in Ha. apply in_map_iff in Ha as ([b u] & <- & Hb).
      apply elem_of_list_In, elem_of_list_filter in Hb as [_ Hb]. apply elem_of_map_to_list in Hb. exact (H2 _ _ Hb).
  Qed.

  Lemma addrs_start cfg c saved :
    addrs_in (fun a => In a (known_addrs cfg saved [])) (start cfg c saved).
  Proof.
    unfold PeerManager.start. set (l := map _ saved). set (K := fun a => In a (known_addrs cfg saved [])).
    assert (forall x a, In x l -> a ∈ addr_set (snd x) -> K a) as Hl.
    { intros x a Hx Ha. apply in_map_iff in Hx as ([pk st] & <- & Hx). unfold K, known_addrs. apply in_or_app. right. apply in_or_app. left.
      apply in_flat_map. exists (pk, st). split; [exact Hx|]. apply elem_of_list_In, elem_of_elements. exact Ha. }
    assert (addrs_in K (insert_peers digest peer_id c l (pm_new digest peer_id cfg c))) as H.
    { assert (addrs_in K (pm_new digest peer_id cfg c)) as H0.
      { split.
        - intros p pe a Hp Ha. cbn in Hp. apply lookup_singleton_Some in Hp as [<- <-]. cbn in Ha. set_solver.
        - intros a u Hu. cbn in Hu. rewrite lookup_empty in Hu. discriminate. }
      clearbody l. unfold insert_peers. revert H0. generalize (pm_new digest peer_id cfg c). induction l as [|[pk st] l IH]; intros s Hs; [exact Hs|].
      cbn [fold_left]. apply IH; [intros x a Hx; apply Hl; right; exact Hx|]. destruct Hs as [H1 H2]. split; [|exact H2].
      intros p pe a Hp Ha. cbn in Hp. apply lookup_insert_Some in Hp as [[<- <-]|[_ Hp]]; [|exact (H1 _ _ _ Hp Ha)].
      apply (Hl (pk, st) a); [left; reflexivity|exact Ha]. }
    destruct (bootstraps cfg) as [|b bs] eqn:Eb; [exact H|]. cbv beta iota. clear Hl.
    assert (forall x, In x (bootstraps cfg) -> K (snd x)) as Hb.
    { intros x Hx. unfold K, known_addrs. apply in_or_app. left. apply in_map, Hx. }
    clear Eb b bs. unfold bootstrap. cbn [fst with_boot_addrs]. cbv zeta. unfold boot_peers.
    assert (forall bl s, (forall x, In x bl -> K (snd x)) -> addrs_in K s ->
      addrs_in K (fold_left (fun s pe => connect_peer (p_id pe) (i_add_peer pe s)) (map (from_pair digest peer_id c) bl) s)) as Hf.
    { induction bl as [|x bl IH]; intros s Hx Hs; [exact Hs|]. cbn [map fold_left]. apply IH; [intros y Hy; apply Hx; right; exact Hy|].
      destruct Hs as [H1 H2]. split.
      - intros p pe a Hp Ha. rewrite connect_pool in Hp. cbn in Hp. apply lookup_insert_Some in Hp as [[<- <-]|[_ Hp]]; [|exact (H1 _ _ _ Hp Ha)].
        cbn in Ha. assert (a = snd x) as -> by set_solver. apply Hx. left. reflexivity.
      - unfold connect_peer. destruct (peer_connected _ _); exact H2. }
    destruct (Hf _ _ Hb H) as [H1 H2]. split; [exact H1|exact H2].
  Qed.

  Lemma addrs_mono (K1 K2 : maddr -> Prop) s : (forall a, K1 a -> K2 a) -> addrs_in K1 s -> addrs_in K2 s.
  Proof. intros HK [H1 H2]. split; [intros p pe a Hp Ha; apply HK; eauto|intros a u Hu; apply HK; eauto]. Qed.

  Lemma known_mono cfg saved ls l a : In a (known_addrs cfg saved ls) -> In a (known_addrs cfg saved (ls ++ [l])).
  Proof.
    unfold known_addrs. rewrite flat_map_app, !in_app_iff. tauto.
  Qed.

  Lemma addrs_run cfg c saved ls n : net_run cfg (net_start cfg c saved) ls n ->
    addrs_in (fun a => In a (known_addrs cfg saved ls)) (nt_mgr n) /\
    (forall a, In a (flat_map event_addrs (nt_queue n)) -> In a (known_addrs cfg saved ls)) /\
    (forall addrs a, In (Connect addrs) (nt_out n) -> In a addrs -> In a (known_addrs cfg saved ls)).
  Proof.
    induction 1 as [|ls n l n' _ (H1 & H2 & H3) Hok Hst].
    - split; [apply addrs_start|]. split; [intros a []|intros addrs a []].
    - set (K' := fun a => In a (known_addrs cfg saved (ls ++ [l]))).
      assert (addrs_in K' (nt_mgr n)) as H1'. { eapply addrs_mono; [|exact H1]. intros a. apply known_mono. }
      assert (forall a, In a (flat_map event_addrs (nt_queue n)) -> K' a) as H2'. { intros a Ha. apply known_mono, H2, Ha. }
      assert (forall addrs a, In (Connect addrs) (nt_out n) -> In a addrs -> K' a) as H3'.
      { intros addrs a Hin Ha. apply known_mono. eapply H3; eassumption. }
      destruct l as [e|us msg pri|c1|c1 picks unks]; cbn [Keeper.net_step] in Hst.
      + injection Hst as <-. cbn [nt_mgr nt_queue nt_out]. split; [exact H1'|]. split; [|exact H3'].
        intros a Ha. rewrite flat_map_app in Ha. apply in_app_or in Ha as [Ha|Ha]; [exact (H2' a Ha)|].
        apply reports_addrs in Ha. unfold known_addrs. rewrite flat_map_app, !in_app_iff. right. right. right. cbn [flat_map].
        rewrite app_nil_r. exact Ha.
      + injection Hst as <-. cbn [nt_mgr nt_queue nt_out]. split; [exact H1'|]. split; [|exact H3'].
        intros a Ha. rewrite flat_map_app in Ha. cbn [flat_map event_addrs app] in Ha. rewrite app_nil_r in Ha. exact (H2' a Ha).
      + destruct (nt_queue n) as [|e q] eqn:Eq; [discriminate|]. cbv zeta in Hst. injection Hst as <-. cbn [nt_mgr nt_queue nt_out].
        split; [|split].
        * apply addrs_event; [|exact H1']. intros a Ha. apply H2'. cbn [flat_map]. apply in_or_app. left. exact Ha.
        * intros a Ha. apply H2'. cbn [flat_map]. apply in_or_app. right. exact Ha.
        * intros addrs a Hin Ha. apply in_app_or in Hin as [Hin|Hin]; [exact (H3' _ _ Hin Ha)|].
          exact (dialled_event K' cfg c1 (nt_mgr n) e addrs a H1' Hin Ha).
      + cbv zeta in Hst. injection Hst as <-. cbn [nt_mgr nt_queue nt_out]. split; [apply addrs_routine, H1'|]. split; [exact H2'|].
        intros addrs a Hin Ha. apply in_app_or in Hin as [Hin|Hin]; [exact (H3' _ _ Hin Ha)|].
        exact (dialled_routine K' cfg c1 (nt_mgr n) picks unks addrs a H1' Hok Hin Ha).
  Qed.

  (** ** Whose failure *)
  Lemma match_direct a s p : addr_pid s !! a = Some p -> match_pid a s = Some p.
  Proof. intros H. unfold match_pid. rewrite H. reflexivity. Qed.
  Lemma cleanly_other cfg c p q s : q <> p -> pool (cleanly_remove_peer peer_id cfg c p s) !! q = pool s !! q.
  Proof.
    intros Hne. rewrite cleanly_eq. cbv zeta. destruct (is_boot cfg p); cbn [pool];
      [rewrite lookup_alter_ne by congruence|rewrite lookup_delete_ne by congruence]; reflexivity.
  Qed.
  Lemma increase_other cfg c p q s : q <> p -> pool (increase_peer_retry peer_id cfg c p s) !! q = pool s !! q.
  Proof.
    intros Hne. unfold increase_peer_retry. cbv zeta.
    destruct (reach_max_retry p (increase_retry_count c p s)); [rewrite cleanly_other by exact Hne|];
      cbn; rewrite lookup_alter_ne by congruence; reflexivity.
  Qed.
  Lemma add_addr_frame p a s :
    pool (add_peer_addr p a s) = alter (add_addr a) p (pool s) /\
    (is_Some (pool s !! p) -> addr_pid (add_peer_addr p a s) = <[a := p]> (addr_pid s)) /\
    connected (add_peer_addr p a s) = connected s /\ boot_addrs (add_peer_addr p a s) = boot_addrs s.
  Proof.
    unfold add_peer_addr. destruct (pool s !! p) as [pe|] eqn:E.
    - cbn. auto.
    - split; [|split; [intros [? [=]]|auto]]. symmetry. apply alter_id. intros x Hx. congruence.
  Qed.
  Lemma identified_frame p l s :
    let s' := fold_left (fun s a => add_peer_addr p a s) l s in
    (forall q, q <> p -> pool s' !! q = pool s !! q) /\
    (is_Some (pool s !! p) -> is_Some (pool s' !! p) /\ (forall a, In a l -> addr_pid s' !! a = Some p)) /\
    boot_addrs s' = boot_addrs s /\ connected s' = connected s.
  Proof.
    cbv zeta. revert s. induction l as [|b l IH] using rev_ind; intros s; cbn.
    - split; [auto|]. split; [|auto]. intros H. split; [exact H|]. intros a [].
    - rewrite fold_left_app. cbn [fold_left]. set (s1 := fold_left (fun s a => add_peer_addr p a s) l s) in *.
      destruct (IH s) as (H1 & H2 & H3 & H4). fold s1 in H1, H2, H3, H4.
      destruct (add_addr_frame p b s1) as (F1 & F2 & F3 & F4). rewrite F1, F3, F4. split; [|split].
      + intros q Hq. rewrite lookup_alter_ne by congruence. apply H1, Hq.
      + intros Hs. destruct (H2 Hs) as [Hs1 Ha]. split; [rewrite is_Some_alter; exact Hs1|].
        intros a Hin. rewrite (F2 Hs1). apply in_app_or in Hin as [Hin|[->|[]]]; [|apply lookup_insert].
        destruct (decide (b = a)) as [->|Hne]; [apply lookup_insert|]. rewrite lookup_insert_ne by exact Hne. apply Ha, Hin.
      + auto.
  Qed.
End KeeperProps.
