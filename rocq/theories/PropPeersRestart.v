(** * C85: what a restart keeps of the peer pool *)
From Coq Require Import List Bool NArith Lia.
From stdpp Require Import base decidable list gmap sets fin_sets.
From Verif Require Import Base Types Keccak PeerManager PmSpec PmFacts PmMore PmPeers PmProps PmProps2 PmProps3 PeerExamples.
Import ListNotations.
Local Open Scope N_scope.

Section Restart.
  Context (digest : bytes -> hash) (peer_id : pubkey -> pid).
  Notation our_id := (our_id peer_id).
  Notation process_event := (process_event digest peer_id).
  Notation reach := (reach digest peer_id).
  Notation start := (start digest peer_id).
  Notation inv := (inv digest peer_id).
  Notation insert_peers := (insert_peers digest peer_id).

  Lemma insert_peers_lookup c l s pk st :
    NoDup (map (fun x => peer_id (fst x)) l) -> In (pk, st) l ->
    exists pe, pool (insert_peers c l s) !! peer_id pk = Some pe /\ p_state pe = st.
  Proof.
    induction l as [|[pk' st'] l IH] using rev_ind; intros Hnd Hin; [destruct Hin|].
    rewrite map_app in Hnd. apply NoDup_app in Hnd as (Hnd & Hdis & _).
    unfold PeerManager.insert_peers. rewrite fold_left_app. cbn [fold_left]. fold (insert_peers c l s).
    cbn [insert_peer with_pool pool].
    apply in_app_or in Hin as [Hin|[E|[]]].
    - destruct (IH Hnd Hin) as (pe & Hp & Hs). exists pe. split; [|exact Hs]. rewrite lookup_insert_ne; [exact Hp|].
      intros E. apply (Hdis (peer_id pk)).
      + apply elem_of_list_In, in_map_iff. exists (pk, st). split; [reflexivity|exact Hin].
      + cbn. rewrite <- E. apply elem_of_list_singleton. reflexivity.
    - injection E as -> ->. eexists. rewrite lookup_insert. split; [reflexivity|]. reflexivity.
  Qed.

  Lemma boot_fold_other c l s p : (forall x, In x l -> peer_id (fst x) <> p) ->
    pool (fold_left (fun s pe => connect_peer (p_id pe) (i_add_peer pe s)) (map (from_pair digest peer_id c) l) s) !! p = pool s !! p.
  Proof.
    revert s. induction l as [|x l IH]; intros s H; cbn [map fold_left]; [reflexivity|].
    rewrite IH by (intros y Hy; apply H; right; exact Hy). rewrite connect_pool. cbn.
    apply lookup_insert_ne, H. left. reflexivity.
  Qed.

  Lemma start_other cfg c saved p : is_bootstrap_peer peer_id cfg p = false ->
    pool (start cfg c saved) !! p =
    pool (insert_peers c (map (fun '(pk, st) => (pk, reloaded c st)) saved) (pm_new digest peer_id cfg c)) !! p.
  Proof.
    intros Hb. unfold PeerManager.start. set (l := map _ saved).
    destruct (bootstraps cfg) as [|b bs] eqn:Eb; [reflexivity|]. cbv beta iota. clear Eb b bs.
    unfold bootstrap. cbn [fst with_boot_addrs pool]. cbv zeta. unfold boot_peers. apply boot_fold_other.
    intros x Hx E. assert (is_bootstrap_peer peer_id cfg p = true) as Ht by (apply is_boot_spec; eauto).
    rewrite Hb in Ht. discriminate Ht.
  Qed.

  Lemma package_ids s : (forall p pe, pool s !! p = Some pe -> wf_peer digest peer_id p pe) ->
    map (fun x => peer_id (fst x)) (package_peers s) = map fst (map_to_list (pool s)).
  Proof.
    intros H. unfold package_peers. rewrite map_map. apply map_ext_in. intros [p pe] Hin.
    apply elem_of_list_In, elem_of_map_to_list in Hin. apply (H _ _ Hin).
  Qed.

  Lemma restart_keeps cfg c s p pe : inv cfg s -> distinct_ids peer_id (map p_pubkey (map snd (map_to_list (pool s))) ++ start_keys cfg (package_peers s)) ->
    pool s !! p = Some pe -> is_bootstrap_peer peer_id cfg p = false ->
    exists pe', pool (start cfg c (package_peers s)) !! p = Some pe' /\
      p_pubkey pe' = p_pubkey pe /\ p_user pe' = p_user pe /\
      p_addrs pe' = p_addrs pe /\ retry_count (p_state pe') = 0 /\ next_retry (p_state pe') = inst c.
  Proof.
    intros Hi Hd Hp Hb. pose proof (i_peer _ _ _ _ Hi _ _ Hp) as (_ & Hwu & Hw).
    set (l := map (fun '(pk, st) => (pk, reloaded c st)) (package_peers s)).
    assert (NoDup (map (fun x => peer_id (fst x)) l)) as Hnd.
    { unfold l. rewrite map_map.
      rewrite (map_ext (fun x : pubkey * peer_state => peer_id (fst (let '(pk, st) := x in (pk, reloaded c st)))) (fun x => peer_id (fst x)))
        by (intros [? ?]; reflexivity).
      rewrite package_ids by exact (i_peer _ _ _ _ Hi). apply NoDup_fst_map_to_list. }
    assert (In (p_pubkey pe, reloaded c (p_state pe)) l) as Hin.
    { unfold l. apply in_map_iff. exists (p_pubkey pe, p_state pe). split; [reflexivity|].
      unfold package_peers. apply in_map_iff. exists (p, pe). split; [reflexivity|].
      apply elem_of_list_In, elem_of_map_to_list, Hp. }
    destruct (insert_peers_lookup c l (pm_new digest peer_id cfg c) _ _ Hnd Hin) as (pe' & Hp' & Hs').
    rewrite Hw in Hp'. unfold l in Hp'. rewrite <- (start_other cfg c (package_peers s) p Hb) in Hp'. exists pe'. split; [exact Hp'|].
    assert (distinct_ids peer_id (start_keys cfg (package_peers s))) as Hd'.
    { intros k1 k2 H1 H2. apply Hd; apply in_or_app; right; assumption. }
    destruct (inv_start digest peer_id cfg c (package_peers s) Hd') as [Hi' Hk'].
    destruct (i_peer _ _ _ _ Hi' _ _ Hp') as (_ & Hwu' & Hw').
    assert (p_pubkey pe' = p_pubkey pe) as Ek.
    { apply Hd; [apply in_or_app; right; exact (Hk' _ _ Hp')| |congruence].
      apply in_or_app. left. apply in_map_iff. exists pe. split; [reflexivity|]. apply in_map_iff. exists (p, pe).
      split; [reflexivity|]. apply elem_of_list_In, elem_of_map_to_list, Hp. }
    unfold p_addrs. rewrite Hs'. repeat split; [exact Ek|congruence].
  Qed.

  (** Every known peer survives a restart: same key, same user, same addresses,
      failures forgotten, if it is not a bootstrap. *)
  Theorem C85_restart_keeps_peers : forall cfg c0 saved h s c p pe,
    distinct_ids peer_id (start_keys cfg saved ++ opened_keys h) ->
    reach cfg (start cfg c0 saved) h s -> pool s !! p = Some pe -> is_bootstrap_peer peer_id cfg p = false ->
    exists pe', pool (start cfg c (package_peers s)) !! p = Some pe' /\
      p_pubkey pe' = p_pubkey pe /\ p_user pe' = p_user pe /\
      p_addrs pe' = p_addrs pe /\ retry_count (p_state pe') = 0 /\ next_retry (p_state pe') = inst c.
  Proof.
    intros cfg c0 saved h s c p pe Hd Hr Hp Hb.
    assert (distinct_ids peer_id (start_keys cfg saved)) as Hd1.
    { intros k1 k2 H1 H2. apply Hd; apply in_or_app; left; assumption. }
    pose proof (inv_reach _ _ _ _ _ _ (proj1 (inv_start digest peer_id cfg c0 saved Hd1)) Hr) as Hi.
    apply restart_keeps; try assumption.
    assert (forall k, In k (map p_pubkey (map snd (map_to_list (pool s)))) -> In k (start_keys cfg saved ++ opened_keys h)) as Hk.
    { intros k H. apply in_map_iff in H as (q & <- & H). apply in_map_iff in H as ([r q'] & E & H). cbn in E. subst q'.
      apply elem_of_list_In, elem_of_map_to_list in H. exact (pool_keys_reach _ _ _ _ _ _ _ Hr _ _ H). }
    assert (forall k, In k (start_keys cfg (package_peers s)) -> In k (start_keys cfg saved ++ opened_keys h)) as Hk2.
    { intros k [<-|H]; [left; reflexivity|]. apply in_app_or in H as [H|H].
      - apply Hk. unfold package_peers in H. rewrite map_map in H. rewrite map_map.
        apply in_map_iff in H as ([r q] & <- & H). apply in_map_iff. exists (r, q). split; [reflexivity|exact H].
      - right. apply in_or_app. left. apply in_or_app. right. exact H. }
    intros k1 k2 H1 H2. apply Hd; [apply in_app_or in H1 as [H1|H1]|apply in_app_or in H2 as [H2|H2]]; auto.
  Qed.

  (** Peers the manager did not know do not appear. *)
  Theorem C85_restart_adds_none : forall cfg c saved p pe,
    pool (start cfg c saved) !! p = Some pe ->
    In (p_pubkey pe) (our_pubkey cfg :: map fst saved ++ map fst (bootstraps cfg)).
  Proof. intros cfg c saved p pe. exact (pool_keys_start digest peer_id cfg c saved p pe). Qed.

  (** False of bootstraps: whatever was saved, a restarted manager knows a
      bootstrap by its configured address only. *)
  Theorem C85_bootstrap_addresses_lost_refuted : forall cfg c saved pk addr,
    NoDup (map (fun x => peer_id (fst x)) (bootstraps cfg)) -> In (pk, addr) (bootstraps cfg) ->
    exists pe, pool (start cfg c saved) !! peer_id pk = Some pe /\ p_addrs pe = {[addr]}.
  Proof.
    intros cfg c saved pk addr Hnd Hin. unfold PeerManager.start. set (l := map _ saved).
    destruct (bootstraps cfg) as [|b bs] eqn:Eb; [destruct Hin|]. rewrite <- Eb in *. cbv beta iota. clear Eb b bs.
    unfold bootstrap. cbn [fst with_boot_addrs pool]. cbv zeta. unfold boot_peers.
    generalize (insert_peers c l (pm_new digest peer_id cfg c)). generalize dependent (bootstraps cfg).
    clear. intros bs Hnd Hin. induction bs as [|[pk' a'] bs IH]; [destruct Hin|]. intros s. cbn [map fold_left].
    cbn [map] in Hnd. apply NoDup_cons in Hnd as [Hno Hnd].
    destruct Hin as [E|Hin]; [|apply IH; assumption]. injection E as -> ->.
    rewrite boot_fold_other.
    - rewrite connect_pool. cbn. rewrite lookup_insert. eexists. split; [reflexivity|].
      unfold p_addrs. cbn. set_solver.
    - intros x Hx E. apply Hno. cbn. rewrite <- E. apply elem_of_list_In, in_map_iff. eauto.
  Qed.
End Restart.

Print Assumptions C85_restart_keeps_peers.
Print Assumptions C85_restart_adds_none.
Print Assumptions C85_bootstrap_addresses_lost_refuted.

(** Peer 3 was learned at two addresses; after a restart both are known. *)
Example x_restart_addrs : option_map (fun pe => elements (p_addrs pe)) (pool (start keccak idx xcfg (at_ 5000) (package_peers (xrun xstart xh))) !! key x03)
  = option_map (fun pe => elements (p_addrs pe)) (pool (xrun xstart xh) !! key x03).
Proof. vm_compute. reflexivity. Qed.
Example x_two_addrs : option_map (fun pe => length (elements (p_addrs pe))) (pool (xrun xstart xh) !! key x03) = Some 2%nat.
Proof. vm_compute. reflexivity. Qed.
(** The bootstrap was also seen at another address; a restart loses it. *)
Definition xlearn : list (clock * action) := [(at_ 1001, AEvent (IdentifiedAddrs (key x02) [adr 22]))].
Example x_learned : option_map (fun pe => length (elements (p_addrs pe))) (pool (xrun xstart xlearn) !! key x02) = Some 2%nat.
Proof. vm_compute. reflexivity. Qed.
Example x_lost : option_map (fun pe => elements (p_addrs pe)) (pool (start keccak idx xcfg (at_ 5000) (package_peers (xrun xstart xlearn))) !! key x02) = Some [adr 2].
Proof. vm_compute. reflexivity. Qed.
