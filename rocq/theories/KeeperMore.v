(** * More behind C86 and C87: sessions the transport opened, forgotten
    sessions, inbound sessions *)
From Coq Require Import List Bool NArith Lia.
From stdpp Require Import base decidable list gmap sets fin_sets.
From Verif Require Import Base Types PeerManager PmSpec PmFacts PmMore PmPeers PmProps Keeper KeeperFacts.
Import ListNotations.
Local Open Scope N_scope.

(** in [ls] the transport opened session [m], authenticated by [pk] *)
Definition opened_by (ls : list label) (pk : pubkey) (m : sid) : Prop :=
  exists x, In (LReport (TEvent (SessionOpen x))) ls /\ sx_id x = m /\ sx_pk x = Some pk.
(** session [m], authenticated by [pk], is open *)
Definition open_with (n : net) (pk : pubkey) (m : sid) : Prop :=
  exists x, nt_open n !! m = Some x /\ sx_pk x = Some pk.
(** in [ls] the transport closed session [m] *)
Definition closed_in (ls : list label) (m : sid) : Prop :=
  exists x, In (LReport (TEvent (SessionClose x))) ls /\ sx_id x = m.
(** an event about the opening or the close of a session of [p] *)
Definition about_session (peer_id : pubkey -> pid) (p : pid) (e : pm_event) : Prop :=
  match e with
  | AttachPeerSession pk _ _ _ => peer_id pk = p
  | DetachPeerSession q _ _ => q = p
  | _ => False
  end.

Section More.
  Context (digest : bytes -> hash) (peer_id : pubkey -> pid).
  Notation act := (act digest peer_id).
  Notation reach := (reach digest peer_id).
  Notation start := (start digest peer_id).
  Notation net_run := (net_run digest peer_id).
  Notation net_step := (net_step digest peer_id).
  Notation net_start := (net_start digest peer_id).
  Notation reports := (reports peer_id).
  Notation ninv := (ninv peer_id).

  Lemma opened_snoc ls l pk m : opened_by ls pk m -> opened_by (ls ++ [l]) pk m.
  Proof. intros (x & H & E). exists x. split; [apply in_or_app; left; exact H|exact E]. Qed.

  Lemma reports_attach e pk m a ty : In (AttachPeerSession pk m a ty) (reports e) ->
    exists x, e = TEvent (SessionOpen x) /\ sx_id x = m /\ sx_pk x = Some pk.
  Proof.
    pose proof (reports_plain peer_id e) as Hp. intros Hin.
    assert (Forall plain (reports e) -> False) as Hno.
    { intros HF. rewrite Forall_forall in HF. apply elem_of_list_In in Hin. exact (HF _ Hin). }
    destruct e as [e|[x|x|ad|ad]|e|e|e]; try (destruct (Hno Hp)).
    - cbn in Hin. destruct (sx_pk x) as [pk'|] eqn:E; [|destruct Hin]. destruct Hin as [[= <- <- <- <-]|[]]. eauto.
    - cbn in Hin. unfold with_pid in Hin. destruct (sx_pk x); [|destruct Hin]. destruct Hin as [Hin|[]]. discriminate.
  Qed.

  Lemma run_opened cfg c saved ls n : net_run cfg (net_start cfg c saved) ls n ->
    (forall p m, peer_session (nt_mgr n) !! p = Some m -> exists pk, peer_id pk = p /\ opened_by ls pk m) /\
    (forall pk m a ty, In (AttachPeerSession pk m a ty) (nt_queue n) -> opened_by ls pk m).
  Proof.
    induction 1 as [|ls n l n' _ (H1 & H2) Hok Hst].
    - split; [|intros pk m a ty []]. intros p m H. cbn [Keeper.net_start nt_mgr] in H.
      rewrite (proj1 (start_sess digest peer_id cfg c saved)), lookup_empty in H. discriminate.
    - assert (forall p m, peer_session (nt_mgr n) !! p = Some m -> exists pk, peer_id pk = p /\ opened_by (ls ++ [l]) pk m) as H1'.
      { intros p m H. destruct (H1 p m H) as (pk & E & Ho). exists pk. split; [exact E|apply opened_snoc, Ho]. }
      assert (forall pk m a ty, In (AttachPeerSession pk m a ty) (nt_queue n) -> opened_by (ls ++ [l]) pk m) as H2'.
      { intros pk m a ty H. eapply opened_snoc, H2, H. }
      destruct l as [e|us msg pri|c1|c1 picks unks]; cbn [Keeper.net_step] in Hst.
      + injection Hst as <-. cbn [nt_mgr nt_queue]. split; [exact H1'|]. intros pk m a ty Hin.
        apply in_app_or in Hin as [Hin|Hin]; [exact (H2' _ _ _ _ Hin)|].
        apply reports_attach in Hin as (x & -> & E1 & E2). exists x. split; [apply in_or_app; right; left; reflexivity|auto].
      + injection Hst as <-. cbn [nt_mgr nt_queue]. split; [exact H1'|]. intros pk m a ty Hin.
        apply in_app_or in Hin as [Hin|[Hin|[]]]; [exact (H2' _ _ _ _ Hin)|discriminate].
      + destruct (nt_queue n) as [|e q] eqn:Eq; [discriminate|]. cbv zeta in Hst. injection Hst as <-. cbn [nt_mgr nt_queue].
        split; [|intros pk m a ty Hin; eapply H2'; right; exact Hin].
        pose proof (sess_act digest peer_id cfg c1 (nt_mgr n) (AEvent e)) as Hs. cbn [PeerManager.act] in Hs.
        destruct Hs as [E1 _ _ _|p0 E1 _ _|pk m0 ad ty Ee E1 _]; intros p m Hp; rewrite E1 in Hp.
        * exact (H1' _ _ Hp).
        * unfold closed_ps in Hp. apply lookup_delete_Some in Hp as [_ Hp]. exact (H1' _ _ Hp).
        * apply lookup_insert_Some in Hp as [[<- <-]|[_ Hp]]; [|exact (H1' _ _ Hp)]. injection Ee as ->.
          exists pk. split; [reflexivity|]. eapply H2'. left. reflexivity.
      + cbv zeta in Hst. injection Hst as <-. cbn [nt_mgr nt_queue]. split; [|exact H2'].
        pose proof (sess_act digest peer_id cfg c1 (nt_mgr n) (ARoutine picks unks)) as Hs. cbn [PeerManager.act] in Hs.
        destruct Hs as [E1 _ _ _|p0 E1 _ _|pk m0 ad ty Ee E1 _]; intros p m Hp;
          change (peer_session (fst (routine (nt_mgr n) picks unks)) !! p = Some m) in Hp; rewrite E1 in Hp.
        * exact (H1' _ _ Hp).
        * unfold closed_ps in Hp. apply lookup_delete_Some in Hp as [_ Hp]. exact (H1' _ _ Hp).
        * discriminate.
  Qed.

  Lemma run_app cfg n0 l1 n1 l2 n2 : net_run cfg n0 l1 n1 -> net_run cfg n1 l2 n2 -> net_run cfg n0 (l1 ++ l2) n2.
  Proof.
    intros H1 H2. induction H2 as [|ls n l n' _ IH Hok Hst]; [rewrite app_nil_r; exact H1|].
    rewrite app_assoc. eapply net_run_snoc; eassumption.
  Qed.

  (** a session the manager has forgotten stays forgotten while it is open *)
  Lemma forgotten cfg c saved l1 n1 l2 n2 pk m :
    distinct_ids peer_id (net_keys (l1 ++ l2)) ->
    net_run cfg (net_start cfg c saved) l1 n1 -> open_with n1 pk m ->
    peer_session (nt_mgr n1) !! peer_id pk = None -> Forall (quiet peer_id (peer_id pk)) (nt_queue n1) ->
    net_run cfg n1 l2 n2 -> ~ closed_in l2 m ->
    open_with n2 pk m /\ peer_session (nt_mgr n2) !! peer_id pk = None /\ Forall (quiet peer_id (peer_id pk)) (nt_queue n2).
  Proof.
    intros Hd Hr1 Ho Hn Hq Hr2. induction Hr2 as [|ls n l n' Hr2 IH Hok Hst]; intros Hc; [auto|].
    assert (distinct_ids peer_id (net_keys (l1 ++ ls))) as Hd'.
    { intros k1 k2 H1 H2. apply Hd; rewrite app_assoc, net_keys_app; apply in_or_app; left; assumption. }
    assert (~ closed_in ls m) as Hc'. { intros (x & Hin & E). apply Hc. exists x. split; [apply in_or_app; left; exact Hin|exact E]. }
    destruct (IH Hd' Hc') as ((x & Hx & Hxk) & Hn' & Hq'). clear IH Hc' Ho Hn Hq.
    pose proof (ninv_run digest peer_id cfg c saved _ _ Hd' (run_app _ _ _ _ _ _ Hr1 Hr2)) as Hi.
    destruct l as [e|us msg pri|c1|c1 picks unks]; cbn [Keeper.net_step] in Hst.
    - injection Hst as <-. cbn [nt_mgr nt_queue nt_open]. unfold open_with. cbn [nt_open].
      pose proof (reports_plain peer_id e) as Hp. cbn [label_ok] in Hok.
      assert (Forall plain (reports e) -> t_open e (nt_open n) = nt_open n ->
        (exists x, t_open e (nt_open n) !! m = Some x /\ sx_pk x = Some pk) /\
        peer_session (nt_mgr n) !! peer_id pk = None /\ Forall (quiet peer_id (peer_id pk)) (nt_queue n ++ reports e)) as Hpl.
      { intros HF E. rewrite E. split; [exists x; auto|]. split; [exact Hn'|]. apply Forall_app. split; [exact Hq'|].
        eapply Forall_impl; [exact HF|]. intros y Hy. exact (plain_quiet peer_id (peer_id pk) y Hy). }
      destruct e as [e|[y|y|ad|ad]|e|e|e]; try (apply Hpl; [exact Hp|reflexivity]).
      + clear Hpl Hp. destruct Hok as (Hnew & pk' & Hpk' & _ & Hno). cbn [t_open Keeper.reports handle_event]. rewrite Hpk'. split; [|split].
        * exists x. split; [|exact Hxk]. rewrite lookup_insert_ne; [exact Hx|]. intros <-. apply Hnew. apply (n_open _ _ _ _ Hi _ _ Hx).
        * exact Hn'.
        * apply Forall_app. split; [exact Hq'|]. constructor; [|constructor]. cbn. intros E. apply (Hno m x Hx). rewrite Hxk. f_equal.
          destruct (n_open _ _ _ _ Hi _ _ Hx) as (_ & _ & pk2 & Hk2 & Hin & _). rewrite Hxk in Hk2. injection Hk2 as <-.
          apply Hd; [| |congruence].
          -- rewrite app_assoc, net_keys_app. apply in_or_app. left. exact Hin.
          -- rewrite app_assoc, net_keys_app. apply in_or_app. right. cbn. rewrite Hpk'. left. reflexivity.
      + clear Hpl Hp. cbn [t_ok] in Hok. cbn [t_open Keeper.reports handle_event]. unfold with_pid.
        assert (sx_id y <> m) as Hne. { intros E. apply Hc. exists y. split; [apply in_or_app; right; left; reflexivity|exact E]. }
        split; [|split].
        * exists x. split; [|exact Hxk]. rewrite lookup_delete_ne; [exact Hx|exact Hne].
        * exact Hn'.
        * apply Forall_app. split; [exact Hq'|]. destruct (sx_pk y) as [pk'|] eqn:Ey; [|constructor].
          constructor; [|constructor]. cbn. intros E. apply Hne.
          destruct (n_play _ _ _ _ Hi (peer_id pk)) as (o & o' & _ & _ & Hoo).
          assert (o' = Some (sx_id y)) as E1. { apply Hoo. exists y, pk'. auto. }
          assert (o' = Some m) as E2. { apply Hoo. exists x, pk. auto. } congruence.
    - injection Hst as <-. cbn [nt_mgr nt_queue nt_open]. unfold open_with. cbn [nt_open]. split; [exists x; auto|]. split; [exact Hn'|].
      apply Forall_app. split; [exact Hq'|]. repeat constructor.
    - destruct (nt_queue n) as [|e q] eqn:Eq; [discriminate|]. cbv zeta in Hst. injection Hst as <-. unfold open_with. cbn [nt_mgr nt_queue nt_open].
      inversion Hq' as [|? ? Hqe Hqq]; subst. split; [exists x; auto|]. split; [|exact Hqq].
      pose proof (sess_act digest peer_id cfg c1 (nt_mgr n) (AEvent e)) as Hs. cbn [PeerManager.act] in Hs.
      destruct Hs as [E1 _ _ _|p0 E1 _ _|pk0 m0 ad ty Ee E1 _]; rewrite E1.
      + exact Hn'.
      + unfold closed_ps. apply lookup_delete_None. right. exact Hn'.
      + injection Ee as ->. cbn in Hqe. rewrite lookup_insert_ne by exact Hqe. exact Hn'.
    - cbv zeta in Hst. injection Hst as <-. unfold open_with. cbn [nt_mgr nt_queue nt_open]. split; [exists x; auto|]. split; [|exact Hq'].
      pose proof (sess_act digest peer_id cfg c1 (nt_mgr n) (ARoutine picks unks)) as Hs. cbn [PeerManager.act] in Hs.
      destruct Hs as [E1 _ _ _|p0 E1 _ _|pk0 m0 ad ty Ee E1 _]; [| |discriminate];
        change (peer_session (fst (routine (nt_mgr n) picks unks)) !! peer_id pk = None); rewrite E1.
      + exact Hn'.
      + unfold closed_ps. apply lookup_delete_None. right. exact Hn'.
  Qed.

  (** ** Inbound sessions *)
  Lemma attach_sets c pk m a ty s :
    connected (attach_peer_session digest peer_id c pk m a ty s) = {[peer_id pk]} ∪ connected s /\
    peer_session (attach_peer_session digest peer_id c pk m a ty s) = <[peer_id pk := m]> (peer_session s).
  Proof.
    rewrite attach_eq. cbv zeta. destruct (attached_frame digest peer_id c pk a ty s) as (E1 & E2 & E3 & E4 & _).
    cbn [connected peer_session]. rewrite E2, E3. split; reflexivity.
  Qed.

  Lemma inbound cfg c0 saved (c : clock) keys : NoDup (map peer_id (our_pubkey cfg :: keys)) ->
    exists ls n, net_run cfg (net_start cfg c0 saved) ls n /\ nt_out n = [] /\ nt_queue n = [] /\
      (forall m x, nt_open n !! m = Some x -> (N.to_nat m < length keys)%nat /\ exists pk, In pk keys /\ sx_pk x = Some pk) /\
      (forall m, m ∈ nt_used n -> (N.to_nat m < length keys)%nat) /\
      (forall pk, In pk keys -> exists m, open_with n pk m /\ peer_session (nt_mgr n) !! peer_id pk = Some m) /\
      (forall pk, In pk keys -> peer_id pk ∈ connected (nt_mgr n)).
  Proof.
    induction keys as [|pk keys IH] using rev_ind; intros Hnd.
    - exists [], (net_start cfg c0 saved). split; [constructor|]. split; [reflexivity|]. split; [reflexivity|].
      cbn [Keeper.net_start nt_open nt_used nt_mgr]. split; [|split; [|split]].
      + intros m x H. rewrite lookup_empty in H. discriminate.
      + set_solver.
      + intros pk [].
      + intros pk [].
    - rewrite app_comm_cons, map_app in Hnd. apply NoDup_app in Hnd as (Hnd' & Hpk' & _).
      assert (forall k, In k (our_pubkey cfg :: keys) -> peer_id k <> peer_id pk) as Hpk.
      { intros k Hk E. apply (Hpk' (peer_id pk)); [|left]. rewrite <- E. apply elem_of_list_In, in_map, Hk. }
      destruct (IH Hnd') as (ls & n & Hr & E1 & E2 & H1 & H2 & H3 & H4). clear IH.
      set (m0 := N.of_nat (length keys)). set (x := SCtx m0 (Some pk) [] Inbound).
      assert (m0 ∉ nt_used n) as Hm0. { intros H. apply H2 in H. subst m0. rewrite Nat2N.id in H. lia. }
      set (n1 := Net (<[m0 := x]> (nt_open n)) ({[m0]} ∪ nt_used n) [AttachPeerSession pk m0 [] Inbound] (nt_mgr n) []).
      set (n2 := Net (nt_open n1) (nt_used n1) [] (attach_peer_session digest peer_id c pk m0 [] Inbound (nt_mgr n)) []).
      exists ((ls ++ [LReport (TEvent (SessionOpen x))]) ++ [LManage c]), n2. split; [|split; [|split; [|split; [|split; [|split]]]]].
      + eapply net_run_snoc; [eapply net_run_snoc; [exact Hr| |]| |].
        * cbn [label_ok t_ok]. split; [exact Hm0|]. exists pk. split; [reflexivity|]. split.
          -- intros ->. apply (Hpk (our_pubkey cfg)); [left|]; reflexivity.
          -- intros m y Hy E. destruct (H1 m y Hy) as (_ & pk' & Hin & E'). rewrite E in E'. injection E' as <-.
             apply (Hpk pk); [right; exact Hin|reflexivity].
        * cbn [Keeper.net_step Keeper.reports handle_event t_open t_used sx_pk sx_id sx_addr sx_ty x]. rewrite E1, E2. reflexivity.
        * exact I.
        * reflexivity.
      + reflexivity.
      + reflexivity.
      + intros m y Hy. cbn [n2 nt_open n1] in Hy. apply lookup_insert_Some in Hy as [[<- <-]|[_ Hy]].
        * rewrite app_length. subst m0. rewrite Nat2N.id. cbn. split; [lia|]. exists pk. split; [|reflexivity].
          apply in_or_app. right. left. reflexivity.
        * destruct (H1 m y Hy) as (Hl & pk' & Hin & E). rewrite app_length. cbn. split; [lia|]. exists pk'.
          split; [apply in_or_app; left; exact Hin|exact E].
      + intros m Hm. cbn [n2 nt_used n1] in Hm. rewrite app_length. cbn. apply elem_of_union in Hm as [Hm|Hm].
        * apply elem_of_singleton in Hm as ->. subst m0. rewrite Nat2N.id. lia.
        * apply H2 in Hm. lia.
      + cbn [n2 nt_mgr]. destruct (attach_sets c pk m0 [] Inbound (nt_mgr n)) as [_ ->].
        intros pk' Hin. unfold open_with. cbn [nt_open n2 n1]. apply in_app_or in Hin as [Hin|[<-|[]]].
        * destruct (H3 pk' Hin) as (m & (y & Hy & Hk) & Hs). exists m. split.
          -- exists y. split; [|exact Hk]. rewrite lookup_insert_ne; [exact Hy|]. intros <-.
             destruct (H1 _ _ Hy) as (Hl & _). subst m0. rewrite Nat2N.id in Hl. lia.
          -- rewrite lookup_insert_ne; [exact Hs|]. intros E. apply (Hpk pk'); [right; exact Hin|congruence].
        * exists m0. split; [exists x; rewrite lookup_insert; auto|]. rewrite lookup_insert. reflexivity.
      + cbn [n2 nt_mgr]. destruct (attach_sets c pk m0 [] Inbound (nt_mgr n)) as [-> _].
        intros pk' Hin. apply in_app_or in Hin as [Hin|[<-|[]]]; [|set_solver]. apply H4 in Hin. set_solver.
  Qed.
End More.
