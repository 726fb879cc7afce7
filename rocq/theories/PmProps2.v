(** * Peer manager: dial candidates, slots and back-off (C76, C78, C83, C84) *)
From Coq Require Import List Bool NArith Lia.
From stdpp Require Import base decidable list gmap sets fin_sets.
From Verif Require Import Base Types CodecProps PeerManager PmSpec PmFacts PmMore PmPeers PmProps.
Import ListNotations.
Local Open Scope N_scope.

Lemma size_disjoint_union (X Y : gset pid) : X ## Y -> size (X ∪ Y) = (size X + size Y)%nat.
Proof. apply size_union. Qed.
Lemma size_list_to_set_nodup (l : list pid) : NoDup l -> size (list_to_set l : gset pid) = length l.
Proof. apply size_list_to_set. Qed.

Section Props2.
  Context (digest : bytes -> hash) (peer_id : pubkey -> pid).
  Notation pubkey_user := (pubkey_user digest).
  Notation our_id := (our_id peer_id).
  Notation process_event := (process_event digest peer_id).
  Notation act := (act digest peer_id).
  Notation reach := (reach digest peer_id).
  Notation start := (start digest peer_id).
  Notation inv := (inv digest peer_id).
  Notation is_boot := (is_bootstrap_peer peer_id).

  Lemma reach_app cfg s0 h1 s1 h2 s2 : reach cfg s0 h1 s1 -> reach cfg s1 h2 s2 -> reach cfg s0 (h1 ++ h2) s2.
  Proof.
    intros H1. induction 1 as [|h s c a _ IH Hok]; [rewrite app_nil_r; exact H1|].
    rewrite app_assoc. apply reach_snoc; assumption.
  Qed.

  Lemma candidates_spec c s p : In p (candidates c s) ->
    p ∉ connected s /\ p ∉ connecting s /\ exists q pe, pool s !! q = Some pe /\ p_id pe = p /\ next_retry (p_state pe) < inst c.
  Proof.
    unfold candidates. intros H. apply in_map_iff in H as (pe & <- & H).
    apply elem_of_list_In, elem_of_list_filter in H as [Hd Hin].
    apply elem_of_list_In, in_map_iff in Hin as ([q pe'] & E & Hin). cbn in E. subst pe'.
    apply elem_of_list_In, elem_of_map_to_list in Hin.
    unfold dial_candidate in Hd. apply andb_true_iff in Hd as [Hd H3]. apply andb_true_iff in Hd as [H1 H2].
    apply negb_true_iff, bool_decide_eq_false in H1, H2. unfold retry_ready in H3. apply N.ltb_lt in H3.
    repeat split; [exact H1|exact H2|]. exists q, pe. auto.
  Qed.

  Lemma candidates_intro c s p pe : pool s !! p = Some pe -> p_id pe = p ->
    p ∉ connected s -> p ∉ connecting s -> next_retry (p_state pe) < inst c -> In p (candidates c s).
  Proof.
    intros Hp Hid H1 H2 H3. unfold candidates. apply in_map_iff. exists pe. split; [exact Hid|].
    apply elem_of_list_In, elem_of_list_filter. split.
    - unfold dial_candidate. rewrite Hid, !bool_decide_eq_false_2 by assumption. cbn. apply N.ltb_lt, H3.
    - apply elem_of_list_In, in_map_iff. exists (p, pe). split; [reflexivity|].
      apply elem_of_list_In, elem_of_map_to_list, Hp.
  Qed.

  Lemma fresh_spec s a : In a (fresh_unknowns s) <-> exists u, unknowns s !! a = Some u /\ u_connecting u = false.
  Proof.
    unfold fresh_unknowns. rewrite in_map_iff. split.
    - intros ([b u] & <- & H). apply elem_of_list_In, elem_of_list_filter in H as [Hc H].
      apply elem_of_map_to_list in H. eauto.
    - intros (u & Hu & Hc). exists (a, u). split; [reflexivity|]. apply elem_of_list_In, elem_of_list_filter.
      split; [exact Hc|]. apply elem_of_map_to_list, Hu.
  Qed.

  (** ** Unknown addresses *)
  Definition unknown_zero (s : pm) : Prop := forall a u, unknowns s !! a = Some u -> u_retry u = 0.

  Lemma reconnect_drops a s : unknown_zero s -> unknowns (reconnect_unknown a s) = delete a (unknowns s).
  Proof.
    intros H. unfold reconnect_unknown. destruct (unknowns s !! a) as [u|] eqn:E.
    - cbv zeta. unfold u_reach_max_retry. cbn [u_retry]. rewrite (H _ _ E). reflexivity.
    - rewrite delete_notin by exact E. reflexivity.
  Qed.

  Lemma mark_zero l m : (forall a u, m !! a = Some u -> u_retry u = 0) ->
    forall a u, mark_connecting l m !! a = Some u -> u_retry u = 0.
  Proof.
    induction l as [|b l IH]; intros H a u; cbn [mark_connecting foldr]; [apply H|].
    intros Ha. apply lookup_alter_Some in Ha as (y & Hy & [->|[-> ->]]); [exact (IH H _ _ Hy)|]. cbn. exact (IH H _ _ Hy).
  Qed.

  Lemma unknown_frame_cleanly cfg c p s : unknowns (cleanly_remove_peer peer_id cfg c p s) = unknowns s.
  Proof. rewrite cleanly_eq. cbv zeta. destruct (is_boot cfg p); reflexivity. Qed.
  Lemma unknown_frame_increase cfg c p s : unknowns (increase_peer_retry peer_id cfg c p s) = unknowns s.
  Proof. unfold increase_peer_retry. cbv zeta. destruct (reach_max_retry _ _); [rewrite unknown_frame_cleanly|]; reflexivity. Qed.
  Lemma unknown_frame_add p a s : unknowns (add_peer_addr p a s) = unknowns s.
  Proof. unfold add_peer_addr. destruct (pool s !! p); reflexivity. Qed.
  Lemma zero_identify a s : unknown_zero s -> unknown_zero (identify_addr a s).
  Proof.
    intros H. unfold identify_addr. destruct (match_pid a s) as [p|].
    - destruct (peer_connected p s); [|exact H]. unfold unknown_zero. rewrite unknown_frame_add. exact H.
    - destruct (unknowns s !! a) eqn:E; [exact H|]. intros b u Hb. cbn in Hb.
      apply lookup_insert_Some in Hb as [[<- <-]|[_ Hb]]; [reflexivity|exact (H _ _ Hb)].
  Qed.
  Lemma zero_delete a s : unknown_zero s -> unknown_zero (with_unknowns (delete a (unknowns s)) s).
  Proof. intros H b u Hb. cbn in Hb. apply lookup_delete_Some in Hb as [_ Hb]. exact (H _ _ Hb). Qed.

  Lemma zero_act cfg c s a : unknown_zero s -> unknown_zero (fst (act cfg c s a)).
  Proof.
    intros H. destruct a as [e|picks unks]; cbn [PeerManager.act].
    2: { intros b u Hb. cbn in Hb. eapply mark_zero; [|exact Hb].
         assert (forall l s, unknowns (fold_left (fun s p => connect_peer p s) l s) = unknowns s) as E.
         { induction l as [|p l IH]; intros s1; cbn; [reflexivity|]. rewrite IH. unfold connect_peer. destruct (peer_connected p s1); reflexivity. }
         rewrite E. exact H. }
    destruct e as [pk n a ty|p n ty|p|p|n|p|a|l|p l|ty n a|a|a|a|a|us msg pri]; cbn [PeerManager.process_event fst].
    - rewrite attach_eq. cbv zeta. intros b u Hb. cbn [unknowns] in Hb. revert Hb. unfold attached.
      destruct (pool s !! peer_id pk) as [pe|].
      + destruct ty; [apply H|]. rewrite unknown_frame_add. apply H.
      + destruct ty; cbn; [apply H|]. intros Hb. apply lookup_delete_Some in Hb as [_ Hb]. exact (H _ _ Hb).
    - unfold detach_peer_session. cbv zeta.
      assert (unknowns (close_peer_session c p s) = unknowns s) as E by (rewrite close_eq; reflexivity).
      destruct (pool (close_peer_session c p s) !! p) as [pe|]; [|unfold unknown_zero; rewrite E; exact H].
      destruct (alive (p_state pe) <? ALIVE_RETRY_INTERVAL); unfold unknown_zero; rewrite ?unknown_frame_increase, E; exact H.
    - exact H.
    - unfold unknown_zero. rewrite unknown_frame_cleanly. exact H.
    - destruct (session_peer s !! n) as [p|] eqn:E; cbn [fst]; [unfold unknown_zero; rewrite unknown_frame_cleanly; exact H|].
      rewrite detach_sid_none by exact E. exact H.
    - unfold unknown_zero. rewrite unknown_frame_increase. exact H.
    - apply zero_identify, H.
    - apply (fold_left_inv (fun s a => identify_addr a s) unknown_zero); [|exact H]. intros. apply zero_identify. assumption.
    - apply (fold_left_inv (fun s a => add_peer_addr p a s) unknown_zero); [|exact H]. intros s1 x H1. unfold unknown_zero. rewrite unknown_frame_add. exact H1.
    - destruct ty; [exact H|]. unfold add_session_addr. cbv zeta. destruct (session_peer _ !! n); unfold unknown_zero; rewrite ?unknown_frame_add; apply zero_delete, H.
    - destruct (decide _); [apply zero_delete, H|]. unfold try_remove_addr. destruct (addr_pid _ !! a); apply (zero_delete a s H).
    - fold (reconnect_unknown a s).
      assert (unknown_zero (reconnect_unknown a s)) as H1.
      { unfold unknown_zero. rewrite reconnect_drops by exact H. apply (zero_delete a s H). }
      destruct (match_pid a (reconnect_unknown a s)) as [p|]; [|exact H1].
      destruct (peer_connected p (reconnect_unknown a s)); [exact H1|]. unfold unknown_zero. rewrite unknown_frame_increase. exact H1.
    - unfold unknown_zero. rewrite unknown_frame_add. exact H.
    - exact H.
    - exact H.
  Qed.

  Lemma start_unknowns cfg c saved : unknowns (start cfg c saved) = ∅.
  Proof.
    unfold PeerManager.start. set (l := map _ saved).
    assert (forall l s, unknowns (insert_peers digest peer_id c l s) = unknowns s) as Hf2.
    { clear. unfold insert_peers. induction l as [|[pk st] l IH]; intros s; cbn [fold_left]; [reflexivity|]. rewrite IH. reflexivity. }
    destruct (bootstraps cfg) as [|b bs] eqn:Eb; [rewrite Hf2; reflexivity|]. cbv beta iota. clear Eb b bs.
    unfold bootstrap. cbn [fst with_boot_addrs unknowns]. cbv zeta.
    assert (forall pes s, unknowns (fold_left (fun s pe => connect_peer (p_id pe) (i_add_peer pe s)) pes s) = unknowns s) as Hf1.
    { induction pes as [|pe pes IH]; intros s; cbn [fold_left]; [reflexivity|]. rewrite IH.
      unfold connect_peer. destruct (peer_connected _ _); reflexivity. }
    rewrite Hf1, Hf2. reflexivity.
  Qed.

  Lemma zero_reach cfg c0 saved h s : reach cfg (start cfg c0 saved) h s -> unknown_zero s.
  Proof.
    induction 1 as [|h s c a _ IH _]; [|apply zero_act, IH].
    intros a u Ha. rewrite start_unknowns, lookup_empty in Ha. discriminate.
  Qed.

  Lemma reconnect_forgets cfg c0 saved h s c a : reach cfg (start cfg c0 saved) h s ->
    unknowns (fst (process_event cfg c s (ReconnectLater a))) !! a = None.
  Proof.
    intros Hr. pose proof (zero_reach _ _ _ _ _ Hr) as H. cbn [PeerManager.process_event fst]. fold (reconnect_unknown a s).
    assert (unknowns (reconnect_unknown a s) !! a = None) as E by (rewrite reconnect_drops by exact H; apply lookup_delete).
    destruct (match_pid a (reconnect_unknown a s)) as [p|]; [|exact E].
    destruct (peer_connected p (reconnect_unknown a s)); [exact E|]. rewrite unknown_frame_increase. exact E.
  Qed.

  (** ** A dial in progress is never given up *)
  Definition timeout1 (a : action) : N := match a with AEvent (ReconnectLater _) => 1 | _ => 0 end.
  Definition timeouts (h : list (clock * action)) : N :=
    fold_right (fun x n => timeout1 (snd x) + n) 0 h.
  Lemma timeouts_app h1 h2 : timeouts (h1 ++ h2) = timeouts h1 + timeouts h2.
  Proof. unfold timeouts. induction h1 as [|x h1 IH]; cbn [app fold_right]; [reflexivity|]. rewrite IH. apply N.add_assoc. Qed.

  Definition low_count (p : pid) (k : N) (q : pid) (pe : peer) : Prop := q = p -> retry_count (p_state pe) <= k.

  Lemma low_each_act cfg c s a p k : ~ may_remove s p a -> is_Some (pool s !! p) ->
    each_peer (low_count p k) s -> each_peer (low_count p k) (fst (act cfg c s a)).
  Proof.
    intros Hm Hp H.
    refine (each_act digest peer_id cfg (low_count p k) (boot_addrs s) (fun _ q => q <> p) (fun q => q <> p)
              _ _ _ _ _ _ _ _ _ _ c s a _ _ eq_refl H).
    - intros q pe ad HP E. exact (HP E).
    - intros q pe ad _ HP E. exact (HP E).
    - intros q pe c1 ip HP E. exact (HP E).
    - intros q pe c1 HP E. exact (HP E).
    - intros q pe HP E. apply N.le_0_l.
    - intros q pe c1 Hq _ _ E. contradiction.
    - intros q pe c1 Hq _ E. contradiction.
    - intros q pe c1 Hq _ E. contradiction.
    - intros c1 pk Hq E. contradiction.
    - intros c1 x Hq E. contradiction.
    - intros q Hq ->. contradiction.
    - intros q Hq ->. rewrite Hq in Hp. destruct Hp as [? E]. discriminate E.
  Qed.

  Definition waiting (p : pid) (k : N) (s : pm) : Prop :=
    p ∈ connecting s /\ exists pe, pool s !! p = Some pe /\ retry_count (p_state pe) <= k.

  Lemma waiting_each p k s : waiting p k s <-> p ∈ connecting s /\ is_Some (pool s !! p) /\ each_peer (low_count p k) s.
  Proof.
    unfold waiting. split.
    - intros (H1 & pe & Hp & Hk). split; [exact H1|]. split; [eauto|]. intros q pq Hq ->. rewrite Hp in Hq. injection Hq as <-. exact Hk.
    - intros (H1 & [pe Hp] & H). split; [exact H1|]. exists pe. split; [exact Hp|exact (H _ _ Hp eq_refl)].
  Qed.

  Lemma waiting_step cfg c s a p k : ~ may_remove s p a -> ~ opens_peer peer_id a p ->
    waiting p k s -> waiting p k (fst (act cfg c s a)).
  Proof.
    intros Hm Ho H. apply waiting_each in H as (H1 & H2 & H3). apply waiting_each. repeat split.
    - destruct (conn_act digest peer_id cfg c s a) as [_ E _ _ _|q _ E Hq|pk n ad ty -> _ E|picks unks _ _ E _].
      + rewrite E. exact H1.
      + rewrite E. apply elem_of_difference. split; [exact H1|]. rewrite elem_of_singleton. intros ->. contradiction.
      + rewrite E. apply elem_of_difference. split; [exact H1|]. rewrite elem_of_singleton. intros ->. apply Ho.
        exists pk, n. split; [exists ad, ty; reflexivity|reflexivity].
      + apply E, H1.
    - apply dom_act; [exact H2|]. intros X. contradiction.
    - apply low_each_act; assumption.
  Qed.

  Lemma waiting_timeout cfg c s ad p k : k + 1 <= 5 ->
    waiting p k s -> waiting p (k + 1) (fst (act cfg c s (AEvent (ReconnectLater ad)))).
  Proof.
    intros Hk H. cbn [PeerManager.act PeerManager.process_event fst]. fold (reconnect_unknown ad s).
    destruct (reconnect_frame ad s) as [u ->].
    set (s1 := with_unknowns u s). assert (waiting p k s1) as Hs1 by exact H. clearbody s1. clear s H u.
    assert (waiting p (k + 1) s1) as Hw.
    { destruct Hs1 as (H1 & pe & H2 & H3). split; [exact H1|]. exists pe. split; [exact H2|lia]. }
    destruct (match_pid ad s1) as [q|]; [|exact Hw].
    destruct (peer_connected q s1); [exact Hw|].
    destruct (decide (q = p)) as [->|Hq].
    - unfold increase_peer_retry. cbv zeta. destruct Hs1 as (H1 & pe & H2 & H3).
      assert (pool (increase_retry_count c p s1) !! p = Some (increase_retry c pe)) as E.
      { cbn. rewrite lookup_alter, H2. reflexivity. }
      pose proof (increase_count c pe) as Hi.
      unfold reach_max_retry. rewrite E.
      destruct (MAX_RETRY_COUNT <=? retry_count (p_state (increase_retry c pe))) eqn:Eb.
      + apply N.leb_le in Eb. unfold MAX_RETRY_COUNT in Eb. lia.
      + split; [exact H1|]. exists (increase_retry c pe). split; [exact E|lia].
    - apply waiting_each in Hw as (H1 & H2 & H3). apply waiting_each. repeat split.
      + destruct (increase_conn peer_id cfg c q s1) as [[_ E]|[_ E]]; rewrite E; [exact H1|].
        apply elem_of_difference. split; [exact H1|]. rewrite elem_of_singleton. congruence.
      + apply increase_dom; [exact H2|]. congruence.
      + assert (forall m, pool m = pool s1 -> True) as _ by auto.
        intros r pe Hr ->.
        unfold increase_peer_retry in Hr. cbv zeta in Hr.
        destruct (reach_max_retry q (increase_retry_count c q s1)).
        * rewrite cleanly_eq in Hr. cbv zeta in Hr. destruct (is_boot cfg q); cbn in Hr.
          -- rewrite !lookup_alter_ne in Hr by congruence. exact (H3 _ _ Hr eq_refl).
          -- rewrite lookup_delete_ne, lookup_alter_ne in Hr by congruence. exact (H3 _ _ Hr eq_refl).
        * cbn in Hr. rewrite lookup_alter_ne in Hr by congruence. exact (H3 _ _ Hr eq_refl).
  Qed.

  Lemma waiting_not_dialled cfg c s p k picks unks : waiting p k s -> routine_ok cfg c s picks unks -> ~ In p picks.
  Proof.
    intros [H _] [(_ & Hin & _) _] Hp. apply Hin, candidates_spec in Hp as (_ & Hp & _). contradiction.
  Qed.

  (** Nothing but timeouts about [p] in [h2]: [p] stays connecting, and is not
      dialled. *)
  Lemma stuck cfg c0 saved h1 s1 h2 s2 p pe :
    reach cfg (start cfg c0 saved) h1 s1 -> p ∈ connecting s1 -> pool s1 !! p = Some pe ->
    reach cfg s1 h2 s2 ->
    (forall c a, In (c, a) h2 -> ~ drops peer_id (h1 ++ h2) p a) ->
    retry_count (p_state pe) + timeouts h2 <= 5 ->
    waiting p (retry_count (p_state pe) + timeouts h2) s2 /\ forall c a, In (c, a) h2 -> ~ dials_peer a p.
  Proof.
    intros Hr1 Hc Hp Hr2. induction Hr2 as [|h s c a Hr IH Hok]; intros Hd Hk.
    - split; [|intros c a []]. split; [exact Hc|]. exists pe. split; [exact Hp|]. cbn. lia.
    - rewrite timeouts_app in Hk. cbn [timeouts fold_right snd] in Hk.
      destruct IH as [Hw Hnd].
      { intros c' a' Hin Hdr. apply (Hd c' a'); [apply in_or_app; left; exact Hin|]. rewrite app_assoc. apply (drops_mono digest), Hdr. }
      { lia. }
      assert (~ drops peer_id (h1 ++ h ++ [(c, a)]) p a) as Hda by (apply (Hd c a); apply in_or_app; right; left; reflexivity).
      assert (~ opens_peer peer_id a p) as Hop by (intros X; apply Hda; left; exact X).
      split.
      + rewrite timeouts_app. cbn [timeouts fold_right snd]. rewrite N.add_0_r, N.add_assoc.
        destruct a as [e|picks unks]; [|cbn [timeout1]; rewrite N.add_0_r; apply waiting_step; [|exact Hop|exact Hw]].
        2: { intros [(n1&t1&X)|[X|[X|[(n1&X&_)|(n1&X&_)]]]]; discriminate X. }
        assert ((exists ad, e = ReconnectLater ad) \/ timeout1 (AEvent e) = 0 /\ forall ad, e <> ReconnectLater ad) as [[ad ->]|[E0 Hne]].
        { destruct e; (left; eexists; reflexivity) || (right; split; [reflexivity|discriminate]). }
        * apply waiting_timeout; [|exact Hw]. cbn [timeout1] in Hk. lia.
        * rewrite E0, N.add_0_r. apply waiting_step; [|exact Hop|exact Hw].
          intros [X|[X|[X|[(n&X&Hn)|(ad&X&_)]]]].
          -- apply Hda. right. left. exact X.
          -- apply Hda. right. right. left. exact X.
          -- apply Hda. right. right. right. left. exact X.
          -- apply Hda. right. right. right. right. exists n. split; [exact X|].
             rewrite app_assoc. apply ever_snoc.
             eapply sp_ever; [|exact Hn]. eapply reach_app; eassumption.
          -- injection X as X. exact (Hne _ X).
      + intros c' a' Hin. apply in_app_or in Hin as [Hin|[E|[]]]; [exact (Hnd _ _ Hin)|]. injection E as <- <-.
        destruct a as [e|picks unks]; cbn; [tauto|]. eapply waiting_not_dialled; [exact Hw|exact Hok].
  Qed.
End Props2.
