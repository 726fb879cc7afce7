(** * Peer manager: the statements behind C74-C78 and C84 *)
From Coq Require Import List Bool NArith Lia.
From stdpp Require Import base decidable list gmap sets fin_sets.
From Verif Require Import Base Types CodecProps PeerManager PmSpec PmFacts PmMore PmPeers.
Import ListNotations.
Local Open Scope N_scope.

Lemma increase_count c pe :
  retry_count (p_state (increase_retry c pe)) <= retry_count (p_state pe) + 1.
Proof.
  unfold increase_retry. destruct (_ <? VALID_ATTEMPT_INTERVAL); cbn; [lia|]. apply N.mod_le. lia.
Qed.
Lemma increase_addrs c pe : p_addrs (increase_retry c pe) = p_addrs pe.
Proof. unfold increase_retry. destruct (_ <? VALID_ATTEMPT_INTERVAL); reflexivity. Qed.

Section Props.
  Context (digest : bytes -> hash) (peer_id : pubkey -> pid).
  Notation pubkey_user := (pubkey_user digest).
  Notation our_id := (our_id peer_id).
  Notation process_event := (process_event digest peer_id).
  Notation act := (act digest peer_id).
  Notation reach := (reach digest peer_id).
  Notation start := (start digest peer_id).
  Notation inv := (inv digest peer_id).
  Notation is_boot := (is_bootstrap_peer peer_id).

  (** ** What the pool looks like at the start *)
  Lemma start_each cfg c saved (P : pid -> peer -> Prop) :
    P (our_id cfg) (peer_new digest peer_id c (our_pubkey cfg)) ->
    (forall p pe st, P p pe -> P p (with_state pe (reloaded c st))) ->
    (forall pk st, P (peer_id pk) (with_state (peer_new digest peer_id c pk) (reloaded c st))) ->
    (forall x, In x (bootstraps cfg) -> P (peer_id (fst x)) (from_pair digest peer_id c x)) ->
    each_peer P (start cfg c saved).
  Proof.
    intros H1 H2 H3 H4. unfold PeerManager.start. set (l := map _ saved).
    assert (each_peer P (insert_peers digest peer_id c l (pm_new digest peer_id cfg c))) as H.
    { assert (forall x, In x l -> exists st, snd x = reloaded c st) as Hl.
      { intros x Hx. apply in_map_iff in Hx as ([pk st] & <- & _). exists st. reflexivity. }
      assert (each_peer P (pm_new digest peer_id cfg c)) as H0.
      { intros p pe Hp. cbn in Hp. apply lookup_singleton_Some in Hp as [<- <-]. exact H1. }
      clearbody l. unfold insert_peers. revert H0. generalize (pm_new digest peer_id cfg c). induction l as [|[pk st] l IH]; intros s Hs; [exact Hs|].
      cbn [fold_left]. apply IH; [intros x Hx; apply Hl; right; exact Hx|].
      destruct (Hl (pk, st) (or_introl eq_refl)) as [st0 E]. cbn in E. subst st.
      intros p pe Hp. cbn in Hp. apply lookup_insert_Some in Hp as [[<- <-]|[_ Hp]]; [|exact (Hs _ _ Hp)].
      destruct (pool s !! peer_id pk) as [pe0|] eqn:E; [apply H2, (Hs _ _ E)|apply H3]. }
    destruct (bootstraps cfg) as [|b bs] eqn:Eb; [exact H|]. cbv beta iota. rewrite <- Eb in H4. clear Eb b bs.
    unfold bootstrap. cbn [fst with_boot_addrs]. cbv zeta. unfold boot_peers.
    assert (forall bl s, (forall x, In x bl -> P (peer_id (fst x)) (from_pair digest peer_id c x)) -> each_peer P s ->
      each_peer P (fold_left (fun s pe => connect_peer (p_id pe) (i_add_peer pe s)) (map (from_pair digest peer_id c) bl) s)) as Hf.
    { induction bl as [|x bl IH]; intros s Hx Hs; [exact Hs|]. cbn [map fold_left]. apply IH; [intros y Hy; apply Hx; right; exact Hy|].
      intros p pe Hp. rewrite connect_pool in Hp. cbn in Hp. apply lookup_insert_Some in Hp as [[<- <-]|[_ Hp]]; [|exact (Hs _ _ Hp)].
      apply Hx. left. reflexivity. }
    exact (Hf _ _ H4 H).
  Qed.

  (** ** Retry counts stay below the maximum *)
  Lemma retry_reach cfg c0 saved h s : reach cfg (start cfg c0 saved) h s ->
    each_peer (fun _ pe => retry_count (p_state pe) <= 5) s.
  Proof.
    induction 1 as [|h s c a Hr IH _].
    - apply start_each; intros; cbn; lia.
    - apply (each_act digest peer_id cfg _ (boot_addrs s) (fun _ _ => True) (fun _ => True)); auto; try (intros; cbn; lia).
      + intros p pe c1 _ _. unfold MAX_RETRY_COUNT. lia.
      + intros p pe c1 _ _. unfold boot_penalty.
        pose proof (increase_count c1 (reset_retry (mark_disconnected c1 pe))) as E1.
        pose proof (increase_count c1 (increase_retry c1 (reset_retry (mark_disconnected c1 pe)))) as E2. cbn in E1. lia.
      + intros p pe c1 _ _. unfold boot_penalty.
        pose proof (increase_count c1 (reset_retry (mark_disconnected c1 (increase_retry c1 pe)))) as E1.
        pose proof (increase_count c1 (increase_retry c1 (reset_retry (mark_disconnected c1 (increase_retry c1 pe))))) as E2. cbn in E1. lia.
  Qed.

  (** ** Bootstrap addresses *)
  Lemma boot_addrs_start cfg c saved :
    boot_addrs (start cfg c saved) = list_to_set (map snd (bootstraps cfg)).
  Proof.
    unfold PeerManager.start. set (l := map _ saved). destruct (bootstraps cfg) as [|b bs] eqn:Eb.
    - cbn. unfold insert_peers.
      assert (forall l s, boot_addrs (fold_left (fun s x => insert_peer digest peer_id c x s) l s) = boot_addrs s) as Hf.
      { clear. induction l as [|[pk st] l IH]; intros s; cbn [fold_left]; [reflexivity|]. rewrite IH. reflexivity. }
      rewrite Hf. reflexivity.
    - cbv beta iota. rewrite <- Eb. clear Eb b bs. unfold bootstrap. cbn [fst with_boot_addrs boot_addrs]. cbv zeta.
      assert (forall pes s, boot_addrs (fold_left (fun s pe => connect_peer (p_id pe) (i_add_peer pe s)) pes s) = boot_addrs s) as Hf1.
      { induction pes as [|pe pes IH]; intros s; cbn [fold_left]; [reflexivity|]. rewrite IH.
        unfold connect_peer. destruct (peer_connected _ _); reflexivity. }
      assert (forall l s, boot_addrs (fold_left (fun s x => insert_peer digest peer_id c x s) l s) = boot_addrs s) as Hf2.
      { clear. induction l as [|[pk st] l IH]; intros s; cbn [fold_left]; [reflexivity|]. rewrite IH. reflexivity. }
      rewrite Hf1. unfold insert_peers. rewrite Hf2. cbn [pm_new boot_addrs]. rewrite union_empty_r_L.
      unfold boot_peers. induction (bootstraps cfg) as [|x bl IH]; [reflexivity|].
      cbn [map concat list_to_set]. rewrite list_to_set_app_L, IH. f_equal.
      unfold owned_addrs, p_addrs. cbn. rewrite union_empty_r_L, list_to_set_elements_L. reflexivity.
  Qed.

  Definition has_boot_addr (cfg : config) (p : pid) (pe : peer) : Prop :=
    p <> our_id cfg -> forall x, In x (bootstraps cfg) -> peer_id (fst x) = p -> snd x ∈ p_addrs pe.

  Lemma boot_addr_start cfg c saved : NoDup (map (fun x => peer_id (fst x)) (bootstraps cfg)) ->
    each_peer (has_boot_addr cfg) (start cfg c saved).
  Proof.
    intros Hnd. unfold PeerManager.start. set (l := map _ saved).
    destruct (bootstraps cfg) as [|b bs] eqn:Eb.
    - intros p pe _ _ x Hx. rewrite Eb in Hx. destruct Hx.
    - cbv beta iota. rewrite <- Eb in *. clear Eb b bs. unfold bootstrap. cbn [fst with_boot_addrs]. cbv zeta. unfold boot_peers.
      generalize (insert_peers digest peer_id c l (pm_new digest peer_id cfg c)). intros s0.
      assert (forall bl, incl bl (bootstraps cfg) -> NoDup (map (fun x => peer_id (fst x)) bl) -> forall s,
        each_peer (fun p pe => forall x, In x bl -> peer_id (fst x) = p -> snd x ∈ p_addrs pe)
         (fold_left (fun s pe => connect_peer (p_id pe) (i_add_peer pe s)) (map (from_pair digest peer_id c) bl) s)) as Hf.
      { clear Hnd. induction bl as [|y bl IH]; intros Hi Hnd s; [intros p pe _ x []|].
        cbn [map] in Hnd. apply NoDup_cons in Hnd as [Hy Hnd]. cbn [map fold_left].
        intros p pe Hp x [<-|Hx] Ex.
        - (* y itself: not overwritten by the rest *)
          assert (forall bl' s1, ~ In (peer_id (fst y)) (map (fun x => peer_id (fst x)) bl') ->
             pool (fold_left (fun s pe => connect_peer (p_id pe) (i_add_peer pe s)) (map (from_pair digest peer_id c) bl') s1) !! peer_id (fst y)
             = pool s1 !! peer_id (fst y)) as Hk.
          { clear. induction bl' as [|z bl' IH]; intros s1 Hn; [reflexivity|]. cbn [map fold_left]. rewrite IH by (intros Hc; apply Hn; right; exact Hc).
            rewrite connect_pool. cbn. rewrite lookup_insert_ne; [reflexivity|]. intros E. apply Hn. left. exact E. }
          rewrite <- Ex in Hp. rewrite Hk in Hp by (intros Hc; apply Hy, elem_of_list_In, Hc).
          rewrite connect_pool in Hp. cbn in Hp. rewrite lookup_insert in Hp. injection Hp as <-. unfold p_addrs. cbn. set_solver.
        - eapply (IH (fun z Hz => Hi z (or_intror Hz)) Hnd); eassumption. }
      intros p pe Hp _ x Hx Ex. exact (Hf (bootstraps cfg) (incl_refl _) Hnd s0 p pe Hp x Hx Ex).
  Qed.

  Lemma boot_addr_reach cfg c0 saved h s : NoDup (map (fun x => peer_id (fst x)) (bootstraps cfg)) ->
    reach cfg (start cfg c0 saved) h s ->
    each_peer (has_boot_addr cfg) s /\ boot_addrs s = list_to_set (map snd (bootstraps cfg)).
  Proof.
    intros Hnd. induction 1 as [|h s c a Hr [IH IHb] _].
    - split; [apply boot_addr_start, Hnd|apply boot_addrs_start].
    - split; [|rewrite boot_addrs_act; exact IHb].
      apply (each_act digest peer_id cfg _ (list_to_set (map snd (bootstraps cfg))) (fun _ _ => True) (fun p => is_boot cfg p = false)); auto;
        unfold has_boot_addr.
      + intros p pe a1 H Hp x Hx Ex. unfold p_addrs. cbn. apply elem_of_union. right. exact (H Hp x Hx Ex).
      + intros p pe a1 Ha H Hp x Hx Ex. unfold p_addrs. cbn. apply elem_of_difference. split; [exact (H Hp x Hx Ex)|].
        destruct Ha as [Ha|Ha]; [|contradiction]. intros Hs. apply elem_of_singleton in Hs. apply Ha.
        apply elem_of_list_to_set, elem_of_list_In. rewrite <- Hs. apply in_map, Hx.
      + intros p pe c1 _ H _ Hp x Hx Ex. rewrite increase_addrs. exact (H Hp x Hx Ex).
      + intros p pe c1 _ H Hp x Hx Ex. unfold boot_penalty. rewrite !increase_addrs. exact (H Hp x Hx Ex).
      + intros p pe c1 _ H Hp x Hx Ex. unfold boot_penalty. rewrite !increase_addrs.
        change (snd x ∈ p_addrs (increase_retry c1 pe)). rewrite increase_addrs. exact (H Hp x Hx Ex).
      + intros c1 pk Hb Hp x Hx Ex. assert (is_boot cfg (peer_id pk) = true) as Hb2 by (apply is_boot_spec; eauto). congruence.
      + intros c1 y Hb Hp x Hx Ex. assert (is_boot cfg (peer_id (fst y)) = true) as Hb2 by (apply is_boot_spec; eauto). congruence.
      + intros p Hp. destruct (is_boot cfg p) eqn:Eb; [|reflexivity]. apply is_boot_spec in Eb as (x & Hx & Ex).
        destruct (boot_reach digest peer_id _ _ _ _ _ Hr x Hx) as [pe Hpe]. rewrite Ex, Hp in Hpe. discriminate.
  Qed.

  (** ** Which user a peer is *)
  Definition all_keys (cfg : config) (saved : list (pubkey * peer_state)) (h : list (clock * action)) : list pubkey :=
    start_keys cfg saved ++ opened_keys h.

  Lemma opened_keys_app h1 h2 : opened_keys (h1 ++ h2) = opened_keys h1 ++ opened_keys h2.
  Proof. unfold opened_keys. apply flat_map_app. Qed.

  Lemma pool_keys_start cfg c saved : pool_keys (start_keys cfg saved) (start cfg c saved).
  Proof.
    unfold PeerManager.start. set (l := map _ saved).
    assert (pool_keys (start_keys cfg saved) (insert_peers digest peer_id c l (pm_new digest peer_id cfg c))) as H.
    { assert (forall x, In x l -> In (fst x) (start_keys cfg saved)) as Hl.
      { intros x Hx. apply in_map_iff in Hx as ([pk st] & <- & Hx). right. apply in_or_app. left.
        cbn. apply in_map_iff. exists (pk, st). auto. }
      assert (pool_keys (start_keys cfg saved) (pm_new digest peer_id cfg c)) as H0.
      { intros p pe Hp. cbn in Hp. apply lookup_singleton_Some in Hp as [<- <-]. left. reflexivity. }
      clearbody l. unfold insert_peers. revert H0. generalize (pm_new digest peer_id cfg c).
      induction l as [|[pk st] l IH]; intros s Hs; [exact Hs|].
      cbn [fold_left]. apply IH; [intros x Hx; apply Hl; right; exact Hx|].
      intros p pe Hp. cbn in Hp. apply lookup_insert_Some in Hp as [[<- <-]|[_ Hp]]; [|exact (Hs _ _ Hp)].
      cbn. destruct (pool s !! peer_id pk) as [pe0|] eqn:E; [exact (Hs _ _ E)|]. apply (Hl (pk, st)). left. reflexivity. }
    destruct (bootstraps cfg) as [|b bs] eqn:Eb; [exact H|]. cbv beta iota. clear Eb b bs.
    unfold bootstrap. cbn [fst with_boot_addrs]. cbv zeta. unfold boot_peers.
    assert (forall bl s, (forall x, In x bl -> In (fst x) (start_keys cfg saved)) -> pool_keys (start_keys cfg saved) s ->
      pool_keys (start_keys cfg saved) (fold_left (fun s pe => connect_peer (p_id pe) (i_add_peer pe s)) (map (from_pair digest peer_id c) bl) s)) as Hf.
    { induction bl as [|x bl IH]; intros s Hx Hs; [exact Hs|]. cbn [map fold_left]. apply IH; [intros y Hy; apply Hx; right; exact Hy|].
      intros p pe Hp. rewrite connect_pool in Hp. cbn in Hp. apply lookup_insert_Some in Hp as [[<- <-]|[_ Hp]]; [|exact (Hs _ _ Hp)].
      apply Hx. left. reflexivity. }
    refine (Hf _ _ _ H). intros x Hx. right. apply in_or_app. right. apply in_map, Hx.
  Qed.

  Lemma pool_keys_act cfg c s a keys : (forall pk n, opens a pk n -> In pk keys) ->
    pool_keys keys s -> pool_keys keys (fst (act cfg c s a)).
  Proof.
    intros Ho H.
    assert (forall p f s, keeps_id f -> pool_keys keys s -> pool_keys keys (modify_peer p f s)) as Hmod.
    { intros p f s1 Hf H1 q pe Hq. cbn in Hq. apply lookup_alter_Some in Hq as (y & Hy & [->|[-> ->]]); [exact (H1 _ _ Hy)|].
      destruct (Hf y) as (_ & _ & ->). exact (H1 _ _ Hy). }
    assert (forall p s, pool_keys keys s -> pool_keys keys (cleanly_remove_peer peer_id cfg c p s)) as Hcl.
    { intros p s1 H1 q pe Hq. rewrite cleanly_eq in Hq. cbv zeta in Hq. destruct (is_boot cfg p); cbn [pool] in Hq.
      - apply lookup_alter_Some in Hq as (y & Hy & [->|[-> ->]]); [exact (H1 _ _ Hy)|]. unfold boot_penalty.
        repeat match goal with |- context [increase_retry c ?x] => destruct (keeps_increase c x) as (_ & _ & ->) end. exact (H1 _ _ Hy).
      - apply lookup_delete_Some in Hq as [_ Hq]. exact (H1 _ _ Hq). }
    assert (forall p s, pool_keys keys s -> pool_keys keys (increase_peer_retry peer_id cfg c p s)) as Hin.
    { intros p s1 H1. unfold increase_peer_retry.
      assert (pool_keys keys (increase_retry_count c p s1)) by (apply Hmod; [apply keeps_increase|exact H1]).
      destruct (reach_max_retry p (increase_retry_count c p s1)); auto. }
    assert (forall p a s, pool_keys keys s -> pool_keys keys (add_peer_addr p a s)) as Had.
    { intros p a1 s1 H1. unfold add_peer_addr. destruct (pool s1 !! p); [|exact H1].
      apply Hmod; [apply keeps_add_addr|exact H1]. }
    assert (forall a s, pool_keys keys s -> pool_keys keys (identify_addr a s)) as Hid.
    { intros a1 s1 H1. unfold identify_addr. destruct (match_pid a1 s1) as [p|].
      - destruct (peer_connected p s1); auto.
      - destruct (unknowns s1 !! a1); exact H1. }
    destruct a as [e|picks unks]; cbn [PeerManager.act].
    2: { intros q pe Hq. cbn in Hq. rewrite connect_fold_pool in Hq. exact (H _ _ Hq). }
    destruct e as [pk n a ty|p n ty|p|p|n|p|a|l|p l|ty n a|a|a|a|a|us msg pri]; cbn [PeerManager.process_event fst].
    - assert (In pk keys) as Hpk by (apply (Ho pk n); exists a, ty; reflexivity).
      assert (pool_keys keys (attached digest peer_id c pk a ty s)) as H1.
      { unfold attached. destruct (pool s !! peer_id pk) as [pe|] eqn:E.
        - destruct ty; auto.
        - destruct ty; cbn [add_peer]; intros q pe Hq; cbn in Hq;
            (apply lookup_insert_Some in Hq as [[<- <-]|[_ Hq]]; [exact Hpk|exact (H _ _ Hq)]). }
      rewrite attach_eq. cbv zeta. intros q pe Hq. cbn [pool] in Hq.
      apply lookup_alter_Some in Hq as (y & Hy & [->|[<- ->]]); exact (H1 _ _ Hy).
    - unfold detach_peer_session. cbv zeta.
      assert (pool_keys keys (close_peer_session c p s)) as H1.
      { intros q pe Hq. rewrite close_eq in Hq. cbn in Hq. apply lookup_alter_Some in Hq as (y & Hy & [->|[-> ->]]); exact (H _ _ Hy). }
      destruct (pool (close_peer_session c p s) !! p) as [pe|]; [|exact H1].
      destruct (alive (p_state pe) <? ALIVE_RETRY_INTERVAL); auto.
    - apply Hmod; [apply keeps_reset|exact H].
    - auto.
    - destruct (session_peer s !! n) as [p|] eqn:E; cbn [fst]; [auto|]. rewrite detach_sid_none by exact E. exact H.
    - auto.
    - auto.
    - apply (fold_left_inv (fun s a => identify_addr a s) (pool_keys keys)); auto.
    - apply (fold_left_inv (fun s a => add_peer_addr p a s) (pool_keys keys)); auto.
    - destruct ty; [exact H|]. unfold add_session_addr. cbv zeta. destruct (session_peer _ !! n); auto.
    - destruct (decide _); [exact H|]. unfold try_remove_addr. destruct (addr_pid _ !! a) as [p|]; [|exact H].
      unfold remove_peer_addr. apply Hmod; [apply keeps_remove_addr|exact H].
    - fold (reconnect_unknown a s). destruct (reconnect_frame a s) as [u Hu]. rewrite Hu.
      destruct (match_pid a (with_unknowns u s)) as [p|]; [|exact H].
      destruct (peer_connected p (with_unknowns u s)); auto.
    - auto.
    - unfold remove_peer_addr. apply Hmod; [apply keeps_remove_addr|exact H].
    - exact H.
  Qed.

  Lemma pool_keys_reach cfg c0 saved h s : reach cfg (start cfg c0 saved) h s -> pool_keys (all_keys cfg saved h) s.
  Proof.
    induction 1 as [|h s c a Hr IH _].
    - intros p pe Hp. unfold all_keys. apply in_or_app. left. exact (pool_keys_start cfg c0 saved p pe Hp).
    - apply pool_keys_act.
      + intros pk n (ad & ty & ->). unfold all_keys. rewrite opened_keys_app. apply in_or_app. right. apply in_or_app. right.
        left. reflexivity.
      + intros p pe Hp. specialize (IH p pe Hp). unfold all_keys in *. rewrite opened_keys_app.
        apply in_app_or in IH as [IH|IH]; apply in_or_app; [left|right; apply in_or_app; left]; exact IH.
  Qed.

  Lemma distinct_sub {B} (f : pubkey -> B) k1 k2 : incl k1 k2 ->
    (forall x y, In x k2 -> In y k2 -> f x = f y -> x = y) -> forall x y, In x k1 -> In y k1 -> f x = f y -> x = y.
  Proof. intros Hi H x y Hx Hy. apply H; apply Hi; assumption. Qed.

  (** every peer of the pool can be found by its user address *)
  Definition users_known (s : pm) : Prop := forall p pe, pool s !! p = Some pe -> user_pid s !! p_user pe = Some p.

  Lemma users_modify p f s : keeps_id f -> users_known s -> users_known (modify_peer p f s).
  Proof.
    intros Hf H q pe Hq. cbn in *. apply lookup_alter_Some in Hq as (y & Hy & [->|[-> ->]]); [exact (H _ _ Hy)|].
    destruct (Hf y) as (_ & -> & _). exact (H _ _ Hy).
  Qed.

  Lemma users_close c p s : users_known s -> users_known (close_peer_session c p s).
  Proof.
    intros H q pe Hq. rewrite close_eq in *. cbn in *.
    apply lookup_alter_Some in Hq as (y & Hy & [->|[-> ->]]); exact (H _ _ Hy).
  Qed.

  Lemma users_remove keys p s : distinct_users digest keys -> pool_keys keys s ->
    (forall p pe, pool s !! p = Some pe -> wf_peer digest peer_id p pe) ->
    users_known s -> users_known (remove_peer p s).
  Proof.
    intros Hd Hk Hwf H q pe Hq. rewrite remove_eq in *. cbn in *. apply lookup_delete_Some in Hq as [Hne Hq].
    unfold removed_users. destruct (pool s !! p) as [pe0|] eqn:E; [|exact (H _ _ Hq)].
    rewrite lookup_delete_ne; [exact (H _ _ Hq)|]. intros Eu. apply Hne.
    destruct (Hwf _ _ E) as (_ & U1 & I1). destruct (Hwf _ _ Hq) as (_ & U2 & I2). rewrite U1, U2 in Eu.
    rewrite <- I1, <- I2. f_equal. apply Hd; [exact (Hk _ _ E)|exact (Hk _ _ Hq)|exact Eu].
  Qed.

  Lemma users_cleanly cfg c keys p s : distinct_users digest keys -> pool_keys keys s -> inv cfg s ->
    users_known s -> users_known (cleanly_remove_peer peer_id cfg c p s).
  Proof.
    intros Hd Hk Hi H. unfold cleanly_remove_peer. cbv zeta. pose proof (users_close c p s H) as H1.
    destruct (is_boot cfg p).
    - apply users_modify; [apply keeps_increase|]. apply users_modify; [apply keeps_increase|].
      apply users_modify; [apply keeps_reset|exact H1].
    - apply users_remove with (keys := keys); [exact Hd| | |exact H1].
      + intros q pe Hq. rewrite close_eq in Hq. cbn in Hq. apply lookup_alter_Some in Hq as (y & Hy & [->|[-> ->]]); exact (Hk _ _ Hy).
      + apply (i_peer _ _ _ _ (inv_close digest peer_id cfg c p s Hi)).
  Qed.
  Lemma users_increase cfg c keys p s : distinct_users digest keys -> pool_keys keys s -> inv cfg s ->
    users_known s -> users_known (increase_peer_retry peer_id cfg c p s).
  Proof.
    intros Hd Hk Hi H. unfold increase_peer_retry. cbv zeta.
    assert (users_known (increase_retry_count c p s)) as H1 by (apply users_modify; [apply keeps_increase|exact H]).
    destruct (reach_max_retry p (increase_retry_count c p s)); [|exact H1].
    apply users_cleanly with (keys := keys); [exact Hd| | |exact H1].
    - intros q pe Hq. cbn in Hq. apply lookup_alter_Some in Hq as (y & Hy & [->|[-> ->]]); [exact (Hk _ _ Hy)|].
      destruct (keeps_increase c y) as (_ & _ & ->). exact (Hk _ _ Hy).
    - apply inv_modify; [apply keeps_increase|exact Hi].
  Qed.
  Lemma users_add_addr p a s : users_known s -> users_known (add_peer_addr p a s).
  Proof.
    intros H. unfold add_peer_addr. destruct (pool s !! p); [|exact H].
    apply users_modify; [apply keeps_add_addr|exact H].
  Qed.
  Lemma users_identify a s : users_known s -> users_known (identify_addr a s).
  Proof.
    intros H. unfold identify_addr. destruct (match_pid a s) as [p|].
    - destruct (peer_connected p s); [apply users_add_addr|]; exact H.
    - destruct (unknowns s !! a); exact H.
  Qed.

  (** adding a peer keeps this, when no other peer has its user address *)
  Lemma users_add keys pe s : distinct_users digest keys -> pool_keys keys s -> In (p_pubkey pe) keys ->
    wf_peer digest peer_id (p_id pe) pe ->
    (forall p pe, pool s !! p = Some pe -> wf_peer digest peer_id p pe) ->
    users_known s -> users_known (i_add_peer pe s).
  Proof.
    intros Hd Hk Hin (_ & U1 & I1) Hwf H q pe' Hq. cbn in *. apply lookup_insert_Some in Hq as [[<- <-]|[Hne Hq]].
    - apply lookup_insert.
    - rewrite lookup_insert_ne; [exact (H _ _ Hq)|]. intros Eu. apply Hne.
      destruct (Hwf _ _ Hq) as (_ & U2 & I2). rewrite U1, U2 in Eu. rewrite <- I1, <- I2. f_equal.
      apply Hd; [exact Hin|exact (Hk _ _ Hq)|exact Eu].
  Qed.

  Lemma users_act cfg c keys s a : distinct_users digest keys -> (forall pk n, opens a pk n -> In pk keys) ->
    pool_keys keys s -> inv cfg s -> users_known s -> users_known (fst (act cfg c s a)).
  Proof.
    intros Hd Ho Hk Hi H. destruct a as [e|picks unks]; cbn [PeerManager.act].
    2: { intros q pe Hq. cbn in Hq |- *. rewrite connect_fold_pool in Hq.
         assert (forall l s, user_pid (fold_left (fun s p => connect_peer p s) l s) = user_pid s) as E.
         { induction l as [|p l IH]; intros s1; cbn; [reflexivity|]. rewrite IH. unfold connect_peer. destruct (peer_connected p s1); reflexivity. }
         rewrite E. exact (H _ _ Hq). }
    destruct e as [pk n a ty|p n ty|p|p|n|p|a|l|p l|ty n a|a|a|a|a|us msg pri]; cbn [PeerManager.process_event fst].
    - assert (In pk keys) as Hpk by (apply (Ho pk n); exists a, ty; reflexivity).
      assert (users_known (attached digest peer_id c pk a ty s)) as H1.
      { unfold attached. destruct (pool s !! peer_id pk) as [pe|] eqn:E.
        - destruct ty; [exact H|apply users_add_addr, H].
        - destruct ty; cbn [add_peer].
          + apply users_add with (keys := keys); [exact Hd|exact Hk|exact Hpk|apply wf_peer_new|apply (i_peer _ _ _ _ Hi)|exact H].
          + apply users_add with (keys := keys); [exact Hd|exact Hk|exact Hpk|apply (wf_from_pair digest peer_id c (pk, a))|apply (i_peer _ _ _ _ Hi)|exact H]. }
      rewrite attach_eq. cbv zeta. intros q pe Hq. cbn [pool user_pid] in *.
      apply lookup_alter_Some in Hq as (y & Hy & [->|[<- ->]]); exact (H1 _ _ Hy).
    - unfold detach_peer_session. cbv zeta. pose proof (users_close c p s H) as H1.
      destruct (pool (close_peer_session c p s) !! p) as [pe|]; [|exact H1].
      destruct (alive (p_state pe) <? ALIVE_RETRY_INTERVAL); [|exact H1].
      apply users_increase with (keys := keys); [exact Hd| | |exact H1].
      + intros q pe' Hq. rewrite close_eq in Hq. cbn in Hq. apply lookup_alter_Some in Hq as (y & Hy & [->|[-> ->]]); exact (Hk _ _ Hy).
      + apply inv_close, Hi.
    - apply users_modify; [apply keeps_reset|exact H].
    - apply users_cleanly with (keys := keys); assumption.
    - destruct (session_peer s !! n) as [p|] eqn:E; cbn [fst]; [apply users_cleanly with (keys := keys); assumption|].
      rewrite detach_sid_none by exact E. exact H.
    - apply users_increase with (keys := keys); assumption.
    - apply users_identify, H.
    - apply (fold_left_inv (fun s a => identify_addr a s) users_known); [|exact H]. intros. apply users_identify. assumption.
    - apply (fold_left_inv (fun s a => add_peer_addr p a s) users_known); [|exact H]. intros. apply users_add_addr. assumption.
    - destruct ty; [exact H|]. unfold add_session_addr. cbv zeta. destruct (session_peer _ !! n); [apply users_add_addr|]; exact H.
    - destruct (decide _); [exact H|]. unfold try_remove_addr. destruct (addr_pid _ !! a) as [p|]; [|exact H].
      unfold remove_peer_addr. apply users_modify; [apply keeps_remove_addr|exact H].
    - fold (reconnect_unknown a s). destruct (reconnect_frame a s) as [u Hu]. rewrite Hu.
      destruct (match_pid a (with_unknowns u s)) as [p|]; [|exact H].
      destruct (peer_connected p (with_unknowns u s)); [exact H|].
      apply users_increase with (keys := keys); [exact Hd|exact Hk|apply inv_unknowns, Hi|exact H].
    - apply users_add_addr, H.
    - unfold remove_peer_addr. apply users_modify; [apply keeps_remove_addr|exact H].
    - exact H.
  Qed.

  Lemma users_start cfg c saved : distinct_ids peer_id (start_keys cfg saved) -> distinct_users digest (start_keys cfg saved) ->
    users_known (start cfg c saved).
  Proof.
    intros Hdi Hdu. unfold PeerManager.start. set (l := map _ saved). set (keys := start_keys cfg saved) in *.
    assert (inv cfg (insert_peers digest peer_id c l (pm_new digest peer_id cfg c)) /\
            pool_keys keys (insert_peers digest peer_id c l (pm_new digest peer_id cfg c)) /\
            users_known (insert_peers digest peer_id c l (pm_new digest peer_id cfg c))) as H.
    { assert (forall x, In x l -> In (fst x) keys) as Hl.
      { intros x Hx. apply in_map_iff in Hx as ([pk st] & <- & Hx). right. apply in_or_app. left.
        cbn. apply in_map_iff. exists (pk, st). auto. }
      assert (inv cfg (pm_new digest peer_id cfg c) /\ pool_keys keys (pm_new digest peer_id cfg c) /\ users_known (pm_new digest peer_id cfg c)) as H0.
      { split; [apply inv_new|]. split; intros p pe Hp; cbn in Hp |- *; apply lookup_singleton_Some in Hp as [<- <-]; [left; reflexivity|apply lookup_singleton]. }
      clearbody l. unfold insert_peers. revert H0. generalize (pm_new digest peer_id cfg c).
      induction l as [|[pk st] l IH]; intros s (H1 & H2 & H3); [auto|].
      assert (In pk keys) as Hpk by (apply (Hl (pk, st)); left; reflexivity).
      cbn [fold_left]. apply IH; [intros x Hx; apply Hl; right; exact Hx|].
      destruct (inv_insert_peer digest peer_id cfg c pk st keys s Hdi Hpk (conj H1 H2)) as [G1 G2].
      split; [exact G1|]. split; [exact G2|].
      intros p pe Hp. cbn in Hp |- *.
      destruct (i_peer _ _ _ _ G1 p pe Hp) as (_ & U & I). pose proof (G2 p pe Hp) as Hin.
      apply lookup_insert_Some in Hp as [[<- Hp]|[Hne Hp]].
      - apply Hdi in I; [|exact Hin|exact Hpk]. rewrite U, I. apply lookup_insert.
      - rewrite lookup_insert_ne; [exact (H3 _ _ Hp)|]. intros Eu. apply Hne. rewrite U in Eu.
        apply Hdu in Eu; [|exact Hpk|exact Hin]. rewrite Eu. exact I. }
    destruct (bootstraps cfg) as [|b bs] eqn:Eb; [apply H|]. cbv beta iota. clear Eb b bs.
    unfold bootstrap. cbn [fst with_boot_addrs]. cbv zeta. unfold boot_peers.
    assert (forall bl s, (forall x, In x bl -> In (fst x) keys) -> inv cfg s /\ pool_keys keys s /\ users_known s ->
      users_known (fold_left (fun s pe => connect_peer (p_id pe) (i_add_peer pe s)) (map (from_pair digest peer_id c) bl) s)) as Hf.
    { induction bl as [|x bl IH]; intros s Hx (H1 & H2 & H3); [exact H3|]. cbn [map fold_left].
      apply IH; [intros y Hy; apply Hx; right; exact Hy|].
      assert (In (fst x) keys) as Hpk by (apply Hx; left; reflexivity).
      destruct (inv_boot digest peer_id cfg c [x] keys s Hdi) as [G1 G2]; [intros y [<-|[]]; exact Hpk|auto|].
      split; [exact G1|]. split; [exact G2|].
      pose proof (users_add keys (from_pair digest peer_id c x) s Hdu H2 Hpk (wf_from_pair digest peer_id c x) (i_peer _ _ _ _ H1) H3) as G3.
      unfold connect_peer. destruct (peer_connected _ _); exact G3. }
    refine (Hf _ _ _ H). intros x Hx. right. apply in_or_app. right. apply in_map, Hx.
  Qed.

  Lemma users_reach cfg c0 saved h s :
    distinct_ids peer_id (all_keys cfg saved h) -> distinct_users digest (all_keys cfg saved h) ->
    reach cfg (start cfg c0 saved) h s -> inv cfg s /\ users_known s.
  Proof.
    intros Hdi Hdu Hr.
    assert (distinct_ids peer_id (start_keys cfg saved)) as Hdi0.
    { refine (distinct_sub peer_id _ (all_keys cfg saved h) _ Hdi). apply incl_appl, incl_refl. }
    assert (distinct_users digest (start_keys cfg saved)) as Hdu0.
    { refine (distinct_sub pubkey_user _ (all_keys cfg saved h) _ Hdu). apply incl_appl, incl_refl. }
    assert (inv cfg s) as Hi. { eapply inv_reach; [|exact Hr]. apply inv_start, Hdi0. }
    split; [exact Hi|]. clear Hi. revert Hdi Hdu. induction Hr as [|h s c a Hr IH _]; intros Hdi Hdu.
    - apply users_start; assumption.
    - assert (incl (all_keys cfg saved h) (all_keys cfg saved (h ++ [(c, a)]))) as Hsub.
      { unfold all_keys. rewrite opened_keys_app. apply incl_app; [apply incl_appl, incl_refl|].
        apply incl_appr, incl_appl, incl_refl. }
      apply users_act with (keys := all_keys cfg saved (h ++ [(c, a)])).
      + exact Hdu.
      + intros pk n (ad & ty & ->). unfold all_keys. rewrite opened_keys_app. apply in_or_app. right. apply in_or_app. right. left. reflexivity.
      + intros p pe Hp. apply Hsub. eapply pool_keys_reach; eassumption.
      + eapply inv_reach; [|exact Hr]. apply inv_start, Hdi0.
      + apply IH; [exact (distinct_sub peer_id _ _ Hsub Hdi)|exact (distinct_sub pubkey_user _ _ Hsub Hdu)].
  Qed.

  (** ** Routing *)
  Definition session_for (s : pm) (u : user_address) : option sid :=
    match user_peer u s with Some pe => peer_session s !! p_id pe | None => None end.

  Lemma route_eq users msg pri s :
    (forall u p, user_pid s !! u = Some p -> exists pe, pool s !! p = Some pe /\ p_user pe = u) ->
    exists addrs missed,
      route_multi_users_message users msg pri s = ([SendMsg (omap (session_for s) users) msg pri; Connect addrs], Some missed) /\
      Permutation missed (filter (fun u => session_for s u = None) users) /\
      forall a, In a addrs -> exists u pe, In u users /\ user_peer u s = Some pe /\ session_for s u = None /\ a ∈ p_addrs pe.
  Proof.
    intros Hu. unfold route_multi_users_message.
    assert (forall u pe, user_peer u s = Some pe -> p_user pe = u) as Hup.
    { intros u pe E. unfold user_peer in E. destruct (user_pid s !! u) as [p|] eqn:Ep; [|discriminate].
      destruct (Hu u p Ep) as (pe' & E' & <-). congruence. }
    eexists _, _. split; [|split].
    - f_equal. f_equal. f_equal. induction users as [|u users IH]; [reflexivity|]. cbn [flat_map].
      rewrite IH. change (omap (session_for s) (u :: users)) with
        (match session_for s u with Some y => y :: omap (session_for s) users | None => omap (session_for s) users end).
      destruct (session_for s u) as [n|] eqn:E; unfold session_for in E; destruct (user_peer u s) as [pe|]; try discriminate;
        rewrite ?E; reflexivity.
    - induction users as [|u users IH]; [reflexivity|]. cbn [flat_map].
      rewrite filter_cons. assert (session_for s u = match user_peer u s with Some pe => peer_session s !! p_id pe | None => None end) as Es by reflexivity.
      destruct (user_peer u s) as [pe|] eqn:E.
      + destruct (peer_session s !! p_id pe) as [n|] eqn:En.
        * rewrite decide_False by (rewrite Es; discriminate). exact IH.
        * rewrite decide_True by exact Es. cbn. rewrite (Hup _ _ E). apply perm_skip. exact IH.
      + rewrite decide_True by exact Es. cbn. rewrite <- Permutation_middle. apply perm_skip. exact IH.
    - intros a Ha. apply in_concat in Ha as (l & Hl & Ha). apply in_map_iff in Hl as (pe & <- & Hpe).
      apply in_flat_map in Hpe as (u & Hin & Hpe). exists u, pe. unfold session_for.
      destruct (user_peer u s) as [pe'|] eqn:E; [|destruct Hpe].
      destruct (peer_session s !! p_id pe') as [n|] eqn:En; [destruct Hpe|]. destruct Hpe as [->|[]].
      repeat split; auto. unfold owned_addrs in Ha. apply elem_of_list_In, elem_of_elements in Ha. exact Ha.
  Qed.

  Lemma session_for_spec cfg s u n keys : inv cfg s -> users_known s -> pool_keys keys s ->
    session_for s u = Some n <-> exists p pe, pool s !! p = Some pe /\ p_user pe = u /\ peer_session s !! p = Some n.
  Proof.
    intros Hi Hk _. unfold session_for, user_peer. split.
    - intros H. destruct (user_pid s !! u) as [p|] eqn:Ep; [|discriminate].
      destruct (i_user _ _ _ _ Hi u p Ep) as (pe & Hpe & Hu). rewrite Hpe in H.
      destruct (i_peer _ _ _ _ Hi p pe Hpe) as (E & _). rewrite E in H. eauto.
    - intros (p & pe & Hpe & Hu & Hs). rewrite <- Hu, (Hk _ _ Hpe), Hpe.
      destruct (i_peer _ _ _ _ Hi p pe Hpe) as (E & _). rewrite E. exact Hs.
  Qed.

  (** the session of [pk] opened in [h] and not dropped since *)
  Definition holds_session (h : list (clock * action)) (pk : pubkey) (n : sid) : Prop :=
    exists pre c a post, h = pre ++ (c, a) :: post /\ opens a pk n /\
      forall c' a', In (c', a') post -> ~ drops peer_id h (peer_id pk) a'.

  Lemma drops_mono h x p a : drops peer_id h p a -> drops peer_id (h ++ [x]) p a.
  Proof.
    intros [?|[?|[?|[?|(n & E & Hn)]]]]; unfold drops; [tauto..|].
    right. right. right. right. exists n. split; [exact E|]. apply ever_snoc, Hn.
  Qed.

  Lemma holds_session_recorded cfg c0 saved h s pk n :
    distinct_ids peer_id (start_keys cfg saved) ->
    reach cfg (start cfg c0 saved) h s -> holds_session h pk n -> peer_session s !! peer_id pk = Some n.
  Proof.
    intros Hd Hr. revert pk n. induction Hr as [|h s c a Hr IH Hok]; intros pk n (pre & c1 & a1 & post & E & Ho & Hp).
    - destruct pre; discriminate.
    - destruct post as [|x post] using rev_ind.
      + apply app_inj_tail in E as [-> [= -> ->]]. destruct Ho as (ad & ty & ->).
        destruct (sess_act digest peer_id cfg c1 s (AEvent (AttachPeerSession pk n ad ty))) as [_ _ _ Hn|q _ _ Hw|pk' n' ad' ty' [= <- <- <- <-] E1 _].
        * exfalso. apply Hn. exists pk, n, ad, ty. reflexivity.
        * exfalso. destruct Hw as [(? & ? & ?)|[?|[?|[(? & ? & _)|(? & ? & _)]]]]; discriminate.
        * rewrite E1. apply lookup_insert.
      + clear IHpost. rewrite app_comm_cons, app_assoc in E. apply app_inj_tail in E as [E <-].
        eapply session_kept; [exact Hr| | |].
        * eapply inv_reach; [|exact Hr]. apply inv_start, Hd.
        * apply IH. exists pre, c1, a1, post. split; [exact E|]. split; [exact Ho|].
          intros c' a' Hin Hdr. apply (Hp c' a'); [apply in_or_app; left; exact Hin|]. apply drops_mono, Hdr.
        * intros Hdr. apply (Hp c a); [apply in_or_app; right; left; reflexivity|]. apply drops_mono, Hdr.
  Qed.
End Props.
