(** * Facts about the transport, the channel and the manager together *)
From Coq Require Import List Bool NArith Lia.
From stdpp Require Import base decidable list gmap sets fin_sets.
From Verif Require Import Base Types PeerManager PmSpec PmFacts PmMore PmPeers PmProps Keeper.
Import ListNotations.
Local Open Scope N_scope.

(** the keys of the sessions the transport opened *)
Definition label_keys (l : label) : list pubkey :=
  match l with
  | LReport (TEvent (SessionOpen x)) => match sx_pk x with Some pk => [pk] | None => [] end
  | _ => []
  end.
Definition net_keys (ls : list label) : list pubkey := flat_map label_keys ls.

Section Facts.
  Context (digest : bytes -> hash) (peer_id : pubkey -> pid).
  Notation act := (act digest peer_id).
  Notation reach := (reach digest peer_id).
  Notation start := (start digest peer_id).
  Notation net_run := (net_run digest peer_id).
  Notation net_step := (net_step digest peer_id).
  Notation net_start := (net_start digest peer_id).
  Notation reports := (reports peer_id).

  (** session [m] is open, authenticated by a key whose identity is [p] *)
  Definition has_open (n : net) (p : pid) (m : sid) : Prop :=
    exists x pk, nt_open n !! m = Some x /\ sx_pk x = Some pk /\ peer_id pk = p.

  (** what the manager is told about the session of peer [p] *)
  Definition replay1 (p : pid) (o : option sid) (e : pm_event) : option (option sid) :=
    match e with
    | AttachPeerSession pk n _ _ =>
        if decide (peer_id pk = p) then match o with None => Some (Some n) | Some _ => None end else Some o
    | DetachPeerSession q n _ =>
        if decide (q = p) then if decide (o = Some n) then Some None else None else Some o
    | _ => Some o
    end.
  Fixpoint replay (p : pid) (o : option sid) (q : list pm_event) : option (option sid) :=
    match q with
    | [] => Some o
    | e :: q => match replay1 p o e with Some o' => replay p o' q | None => None end
    end.
  Lemma replay_app p o q1 q2 :
    replay p o (q1 ++ q2) = match replay p o q1 with Some o' => replay p o' q2 | None => None end.
  Proof.
    revert o. induction q1 as [|e q1 IH]; intros o; [reflexivity|]. cbn [app replay].
    destruct (replay1 p o e) as [o'|]; [apply IH|reflexivity].
  Qed.
  Definition quiet (p : pid) (e : pm_event) : Prop :=
    match e with
    | AttachPeerSession pk _ _ _ => peer_id pk <> p
    | DetachPeerSession q _ _ => q <> p
    | _ => True
    end.
  Lemma replay1_quiet p o e : quiet p e -> replay1 p o e = Some o.
  Proof.
    destruct e; cbn [quiet replay1]; try reflexivity; intros H; rewrite decide_False by exact H; reflexivity.
  Qed.
  Lemma replay_quiet p o q : Forall (quiet p) q -> replay p o q = Some o.
  Proof.
    induction 1 as [|e q He _ IH]; [reflexivity|]. cbn [replay]. rewrite replay1_quiet by exact He. exact IH.
  Qed.
  (** a recorded session is still there at the end, or its close is waiting *)
  Lemma replay_some p m q o : replay p (Some m) q = Some o ->
    o = Some m \/ exists ty, In (DetachPeerSession p m ty) q.
  Proof.
    induction q as [|e q IH]; cbn [replay]; [intros [= <-]; left; reflexivity|].
    destruct (replay1 p (Some m) e) as [o'|] eqn:E; [|discriminate]. intros H.
    assert (o' = Some m \/ exists ty, e = DetachPeerSession p m ty) as [->|[ty ->]].
    { destruct e; cbn [replay1] in E; try (injection E as <-; left; reflexivity).
      - destruct (decide (peer_id pk = p)); [discriminate|]. injection E as <-. left. reflexivity.
      - destruct (decide (p0 = p)) as [->|]; [|injection E as <-; left; reflexivity].
        destruct (decide (Some m = Some s)) as [[= <-]|]; [|discriminate]. right. exists ty. reflexivity. }
    - destruct (IH H) as [->|[ty Hin]]; [left; reflexivity|right; exists ty; right; exact Hin].
    - right. exists ty. left. reflexivity.
  Qed.
  (** the session at the end was there at the beginning, or its opening is waiting *)
  Lemma replay_end p o q m : replay p o q = Some (Some m) ->
    o = Some m \/ exists pk a ty, In (AttachPeerSession pk m a ty) q /\ peer_id pk = p.
  Proof.
    revert o. induction q as [|e q IH]; intros o; cbn [replay]; [intros [= <-]; left; reflexivity|].
    destruct (replay1 p o e) as [o'|] eqn:E; [|discriminate]. intros H. destruct (IH _ H) as [->|(pk & a & ty & Hin & Hpk)].
    - destruct e; cbn [replay1] in E; try (injection E as <-; left; reflexivity).
      + destruct (decide (peer_id pk = p)) as [Ep|]; [|injection E as <-; left; reflexivity].
        destruct o; [discriminate|]. injection E as <-. right. exists pk, addr, ty. split; [left; reflexivity|exact Ep].
      + destruct (decide (p0 = p)) as [->|]; [|injection E as <-; left; reflexivity].
        destruct (decide (o = Some s)); discriminate.
    - right. exists pk, a, ty. split; [right; exact Hin|exact Hpk].
  Qed.

  Definition attach_sids (q : list pm_event) : list sid :=
    flat_map (fun e => match e with AttachPeerSession _ n _ _ => [n] | _ => [] end) q.
  Definition attach_keys (q : list pm_event) : list pubkey :=
    flat_map (fun e => match e with AttachPeerSession pk _ _ _ => [pk] | _ => [] end) q.

  Record ninv (cfg : config) (keys : list pubkey) (n : net) : Prop := {
    n_open : forall m x, nt_open n !! m = Some x ->
      sx_id x = m /\ m ∈ nt_used n /\ exists pk, sx_pk x = Some pk /\ In pk keys /\ pk <> our_pubkey cfg;
    n_play : forall p, exists o o', replay p o (nt_queue n) = Some o' /\
      (forall m, peer_session (nt_mgr n) !! p = Some m -> o = Some m) /\
      (forall m, o' = Some m <-> has_open n p m);
    n_fresh : NoDup (attach_sids (nt_queue n));
    n_used : forall m, In m (attach_sids (nt_queue n)) -> m ∈ nt_used n;
    n_new : forall m, In m (attach_sids (nt_queue n)) -> session_peer (nt_mgr n) !! m = None;
    n_old : forall m p, session_peer (nt_mgr n) !! m = Some p -> m ∈ nt_used n;
    n_inv : forall m p, session_peer (nt_mgr n) !! m = Some p <-> peer_session (nt_mgr n) !! p = Some m;
    n_keys : forall pk, In pk (attach_keys (nt_queue n)) -> In pk keys
  }.

  Lemma net_keys_app l1 l2 : net_keys (l1 ++ l2) = net_keys l1 ++ net_keys l2.
  Proof. apply flat_map_app. Qed.

  Lemma ninv_start cfg c saved : ninv cfg [] (net_start cfg c saved).
  Proof.
    destruct (start_sess digest peer_id cfg c saved) as [E1 E2].
    split; unfold Keeper.net_start; cbn [nt_open nt_queue nt_mgr nt_used].
    - intros m x H. rewrite lookup_empty in H. discriminate.
    - intros p. exists None, None. split; [reflexivity|]. rewrite E1. split.
      + intros m H. rewrite lookup_empty in H. discriminate.
      + intros m. split; [discriminate|]. intros (x & pk & H & _). cbn in H. rewrite lookup_empty in H. discriminate.
    - constructor.
    - intros m [].
    - intros m [].
    - intros m p H. rewrite E2, lookup_empty in H. discriminate.
    - intros m p. rewrite E1, E2, !lookup_empty. split; discriminate.
    - intros pk [].
  Qed.

  (** an event that says nothing about opened or closed sessions *)
  Definition plain (e : pm_event) : Prop :=
    match e with AttachPeerSession _ _ _ _ | DetachPeerSession _ _ _ => False | _ => True end.
  Lemma plain_quiet p e : plain e -> quiet p e.
  Proof. destruct e; cbn; try (intros _; exact I); intros []. Qed.
  Lemma plain_sids q : Forall plain q -> attach_sids q = [].
  Proof. induction 1 as [|e q He _ IH]; [reflexivity|]. destruct e; cbn in *; try exact IH; destruct He. Qed.
  Lemma plain_keys q : Forall plain q -> attach_keys q = [].
  Proof. induction 1 as [|e q He _ IH]; [reflexivity|]. destruct e; cbn in *; try exact IH; destruct He. Qed.

  Lemma reports_plain e :
    match e with TEvent (SessionOpen _) | TEvent (SessionClose _) => True | _ => Forall plain (reports e) end.
  Proof.
    destruct e as [[]| [] | [] | [] | []]; cbn [Keeper.reports handle_error handle_event ping_report disc_report ident_report with_pid];
      try exact I; try (repeat constructor).
    1,2: unfold connect_error; destruct e; repeat constructor.
    1: destruct proto_name.
    all: unfold with_pid; destruct (sx_pk x); repeat constructor.
  Qed.

  Lemma ninv_quiet cfg keys n q : Forall plain q -> ninv cfg keys n ->
    ninv cfg keys (Net (nt_open n) (nt_used n) (nt_queue n ++ q) (nt_mgr n) (nt_out n)).
  Proof.
    intros Hq [A B C D E F G K]. split; cbn [nt_open nt_queue nt_mgr nt_used].
    - exact A.
    - intros p. destruct (B p) as (o & o' & H1 & H2 & H3). exists o, o'. split; [|split; [exact H2|exact H3]].
      rewrite replay_app, H1. apply replay_quiet. eapply Forall_impl; [exact Hq|]. intros e. apply plain_quiet.
    - unfold attach_sids in *. rewrite flat_map_app. fold (attach_sids q). rewrite (plain_sids q Hq), app_nil_r. exact C.
    - intros m. unfold attach_sids in *. rewrite flat_map_app. fold (attach_sids q). rewrite (plain_sids q Hq), app_nil_r. apply D.
    - intros m. unfold attach_sids in *. rewrite flat_map_app. fold (attach_sids q). rewrite (plain_sids q Hq), app_nil_r. apply E.
    - exact F.
    - exact G.
    - intros pk. unfold attach_keys in *. rewrite flat_map_app. fold (attach_keys q). rewrite (plain_keys q Hq), app_nil_r. apply K.
  Qed.

  Lemma ninv_report cfg keys n e : distinct_ids peer_id (keys ++ label_keys (LReport e)) -> ninv cfg keys n -> t_ok cfg n e ->
    ninv cfg (keys ++ label_keys (LReport e))
      (Net (t_open e (nt_open n)) (t_used e (nt_used n)) (nt_queue n ++ reports e) (nt_mgr n) (nt_out n)).
  Proof.
    intros Hd Hi Hok. pose proof (reports_plain e) as Hp.
    assert (forall a : list pm_event, Forall plain a -> label_keys (LReport e) = [] -> reports e = a ->
      t_open e (nt_open n) = nt_open n -> t_used e (nt_used n) = nt_used n ->
      ninv cfg (keys ++ label_keys (LReport e))
      (Net (t_open e (nt_open n)) (t_used e (nt_used n)) (nt_queue n ++ reports e) (nt_mgr n) (nt_out n))) as Hplain.
    { intros a Ha E1 E2 E3 E4. rewrite E1, E2, E3, E4, app_nil_r. apply ninv_quiet; assumption. }
    destruct e as [e|[x|x|ad|ad]|e|e|e];
      try (eapply Hplain; [exact Hp|reflexivity..]). 
    - (* a session is opened *)
      clear Hplain Hp. destruct Hok as (Hnew & pk & Hpk & Hours & Hno). cbn [label_keys] in *. rewrite Hpk in *.
      destruct Hi as [A B C D E F G K].
      cbn [t_open t_used Keeper.reports handle_event]. rewrite Hpk.
      split; cbn [nt_open nt_queue nt_mgr nt_used].
      + intros m y H. apply lookup_insert_Some in H as [[<- <-]|[Hne H]].
        * split; [reflexivity|]. split; [set_solver|]. exists pk. split; [exact Hpk|]. split; [|exact Hours].
          apply in_or_app. right. left. reflexivity.
        * destruct (A m y H) as (H1 & H2 & pk' & H3 & H4 & H5). split; [exact H1|]. split; [set_solver|].
          exists pk'. split; [exact H3|]. split; [|exact H5]. apply in_or_app. left. exact H4.
      + intros p. destruct (B p) as (o & o' & H1 & H2 & H3).
        destruct (decide (peer_id pk = p)) as [Ep|Ep].
        * exists o, (Some (sx_id x)). rewrite replay_app, H1. cbn [replay replay1]. rewrite decide_True by exact Ep.
          assert (o' = None) as ->.
          { destruct o' as [m|]; [|reflexivity]. exfalso. destruct (proj1 (H3 m) eq_refl) as (y & pk' & Hy & Hpk' & Ep').
            apply (Hno m y Hy). rewrite Hpk'. f_equal. apply Hd.
            - destruct (A m y Hy) as (_ & _ & pk2 & Hk2 & Hin & _). rewrite Hk2 in Hpk'. injection Hpk' as <-.
              apply in_or_app. left. exact Hin.
            - apply in_or_app. right. left. reflexivity.
            - congruence. }
          split; [reflexivity|]. split; [exact H2|]. intros m. unfold has_open. cbn [nt_open]. split.
          -- intros [= <-]. exists x, pk. rewrite lookup_insert. auto.
          -- intros (y & pk' & Hy & Hpk' & Ep'). apply lookup_insert_Some in Hy as [[<- <-]|[Hne Hy]]; [reflexivity|].
             exfalso. assert (@None sid = Some m) as [=]. apply H3. exists y, pk'. auto.
        * exists o, o'. rewrite replay_app, H1. cbn [replay replay1]. rewrite decide_False by exact Ep.
          split; [reflexivity|]. split; [exact H2|]. intros m. rewrite H3. unfold has_open. cbn [nt_open]. split.
          -- intros (y & pk' & Hy & Hpk' & Ep'). exists y, pk'. split; [|auto]. rewrite lookup_insert_ne; [exact Hy|].
             intros <-. apply Hnew. apply (A _ _ Hy).
          -- intros (y & pk' & Hy & Hpk' & Ep'). apply lookup_insert_Some in Hy as [[<- <-]|[Hne Hy]].
             ++ rewrite Hpk in Hpk'. injection Hpk' as <-. contradiction.
             ++ exists y, pk'. auto.
      + unfold attach_sids in *. rewrite flat_map_app. cbn. apply NoDup_app. split; [exact C|]. split; [|apply NoDup_singleton].
        intros m Hm. apply elem_of_list_In in Hm. rewrite elem_of_list_singleton. intros ->. apply Hnew, D, Hm.
      + intros m. unfold attach_sids in *. rewrite flat_map_app. intros Hm. apply in_app_or in Hm as [Hm|[<-|[]]]; [|set_solver].
        pose proof (D m Hm). set_solver.
      + intros m. unfold attach_sids in *. rewrite flat_map_app. intros Hm. apply in_app_or in Hm as [Hm|[<-|[]]]; [exact (E m Hm)|].
        destruct (session_peer (nt_mgr n) !! sx_id x) as [p|] eqn:Es; [|reflexivity]. destruct (Hnew (F _ _ Es)).
      + intros m p Hm. pose proof (F m p Hm). set_solver.
      + exact G.
      + intros pk'. unfold attach_keys in *. rewrite flat_map_app. intros Hm. apply in_or_app.
        apply in_app_or in Hm as [Hm|[<-|[]]]; [left; exact (K _ Hm)|right; left; reflexivity].
    - (* a session is closed *)
      clear Hplain Hp. cbn [t_ok label_keys] in *. rewrite app_nil_r in *.
      destruct Hi as [A B C D E F G K]. destruct (A _ _ Hok) as (_ & Hused & pk & Hpk & Hin & Hours).
      cbn [t_open t_used Keeper.reports handle_event]. unfold with_pid. rewrite Hpk.
      split; cbn [nt_open nt_queue nt_mgr nt_used].
      + intros m y H. apply lookup_delete_Some in H as [_ H]. exact (A _ _ H).
      + intros p. destruct (B p) as (o & o' & H1 & H2 & H3).
        destruct (decide (peer_id pk = p)) as [Ep|Ep].
        * exists o, None. rewrite replay_app, H1. cbn [replay replay1]. rewrite decide_True by exact Ep.
          assert (o' = Some (sx_id x)) as ->. { apply H3. exists x, pk. auto. }
          rewrite decide_True by reflexivity. split; [reflexivity|]. split; [exact H2|].
          intros m. split; [discriminate|]. intros (y & pk' & Hy & Hpk' & Ep'). cbn [nt_open] in Hy.
          apply lookup_delete_Some in Hy as [Hne Hy]. exfalso. apply Hne.
          assert (Some (sx_id x) = Some m) as [= E']; [|exact E']. apply H3. exists y, pk'. auto.
        * exists o, o'. rewrite replay_app, H1. cbn [replay replay1]. rewrite decide_False by exact Ep.
          split; [reflexivity|]. split; [exact H2|]. intros m. rewrite H3. unfold has_open. cbn [nt_open]. split.
          -- intros (y & pk' & Hy & Hpk' & Ep'). exists y, pk'. split; [|auto]. apply lookup_delete_Some. split; [|exact Hy].
             intros <-. rewrite Hok in Hy. injection Hy as <-. congruence.
          -- intros (y & pk' & Hy & Hpk' & Ep'). apply lookup_delete_Some in Hy as [_ Hy]. exists y, pk'. auto.
      + unfold attach_sids in *. rewrite flat_map_app. cbn. rewrite app_nil_r. exact C.
      + intros m. unfold attach_sids in *. rewrite flat_map_app. cbn. rewrite app_nil_r. apply D.
      + intros m. unfold attach_sids in *. rewrite flat_map_app. cbn. rewrite app_nil_r. apply E.
      + exact F.
      + exact G.
      + intros pk'. unfold attach_keys in *. rewrite flat_map_app. cbn. rewrite app_nil_r. apply K.
  Qed.

  Lemma ninv_manage cfg keys n e q c : ninv cfg keys n -> nt_queue n = e :: q ->
    ninv cfg keys (Net (nt_open n) (nt_used n) q (fst (process_event digest peer_id cfg c (nt_mgr n) e))
      (nt_out n ++ fst (snd (process_event digest peer_id cfg c (nt_mgr n) e)))).
  Proof.
    intros [A B C D E F G K] Eq. rewrite Eq in *.
    pose proof (sess_act digest peer_id cfg c (nt_mgr n) (AEvent e)) as Hs. cbn [PeerManager.act] in Hs.
    set (s := nt_mgr n) in *. set (s' := fst (process_event digest peer_id cfg c s e)) in *.
    assert (forall m, In m (attach_sids q) -> In m (attach_sids (e :: q))) as Hsub.
    { intros m Hm. unfold attach_sids. cbn [flat_map]. apply in_or_app. right. exact Hm. }
    assert (NoDup (attach_sids q)) as Hnd.
    { unfold attach_sids in C. cbn [flat_map] in C. apply NoDup_app in C as (_ & _ & C). exact C. }
    assert (forall pk, In pk (attach_keys q) -> In pk keys) as Hkeys.
    { intros pk Hm. apply K. unfold attach_keys. cbn [flat_map]. apply in_or_app. right. exact Hm. }
    assert (forall m, In m (attach_sids q) -> m ∈ nt_used n) as Hus. { intros m Hm. apply D, Hsub, Hm. }
    assert (forall o p, quiet p e -> replay p o (e :: q) = replay p o q) as Hrq.
    { intros o p Hq. cbn [replay]. rewrite replay1_quiet by exact Hq. reflexivity. }
    destruct Hs as [E1 E2 Hc Ho|p0 E1 E2 Hwhy|pk m0 ad ty Ee E1 E2].
    - (* unchanged *)
      split; cbn [nt_open nt_queue nt_mgr nt_used]; rewrite ?E1, ?E2.
      + exact A.
      + intros p. destruct (B p) as (o & o' & H1 & H2 & H3). exists o, o'. split; [|split; [exact H2|exact H3]].
        rewrite Hrq in H1; [exact H1|]. destruct e; try exact I.
        * exfalso. apply Ho. exists pk, s0, addr, ty. reflexivity.
        * exfalso. apply Hc. exists p0, s0, ty. reflexivity.
      + exact Hnd.
      + exact Hus.
      + intros m Hm. apply E, Hsub, Hm.
      + exact F.
      + exact G.
      + exact Hkeys.
    - (* a session of [p0] is forgotten *)
      assert (forall m p, closed_sp p0 s !! m = Some p <-> session_peer s !! m = Some p /\ p <> p0) as Hcsp.
      { intros m p. unfold closed_sp. destruct (peer_session s !! p0) as [m0|] eqn:Em.
        - rewrite lookup_delete_Some. split.
          + intros [Hne H]. split; [exact H|]. intros ->. apply G in H. congruence.
          + intros [H Hne]. split; [|exact H]. intros <-. apply G in Em. congruence.
        - split; [|tauto]. intros H. split; [exact H|]. intros ->. apply G in H. congruence. }
      split; cbn [nt_open nt_queue nt_mgr nt_used]; rewrite ?E1, ?E2.
      + exact A.
      + intros p. destruct (B p) as (o & o' & H1 & H2 & H3). cbn [replay] in H1.
        destruct (replay1 p o e) as [o1|] eqn:Er; [|discriminate].
        exists o1, o'. split; [exact H1|]. split; [|exact H3].
        intros m Hm. unfold closed_ps in Hm. apply lookup_delete_Some in Hm as [Hne Hm]. rewrite (H2 m Hm) in Er.
        assert (quiet p e) as Hqe; [|rewrite replay1_quiet in Er by exact Hqe; congruence].
        destruct Hwhy as [(n1 & ty1 & He)|[He|[He|[(n1 & He & _)|(ad & He & _)]]]]; injection He as ->; cbn; first [exact I|congruence].
      + exact Hnd.
      + exact Hus.
      + intros m Hm. destruct (closed_sp p0 s !! m) as [p|] eqn:Em; [|reflexivity]. apply Hcsp in Em as [Em _].
        rewrite (E m (Hsub m Hm)) in Em. discriminate.
      + intros m p Hm. apply Hcsp in Hm as [Hm _]. exact (F _ _ Hm).
      + intros m p. rewrite Hcsp, G. unfold closed_ps. rewrite lookup_delete_Some. split; intros [? ?]; split; auto.
      + exact Hkeys.
    - (* a session is opened *)
      injection Ee as ->.
      assert (peer_session s !! peer_id pk = None) as Hnone.
      { destruct (peer_session s !! peer_id pk) as [m|] eqn:Em; [|reflexivity].
        destruct (B (peer_id pk)) as (o & o' & H1 & H2 & _). rewrite (H2 m Em) in H1. cbn [replay replay1] in H1.
        rewrite decide_True in H1 by reflexivity. discriminate. }
      assert (session_peer s !! m0 = None) as Hm0. { apply E. left. reflexivity. }
      split; cbn [nt_open nt_queue nt_mgr nt_used]; rewrite ?E1, ?E2.
      + exact A.
      + intros p. destruct (B p) as (o & o' & H1 & H2 & H3). cbn [replay replay1] in H1.
        destruct (decide (peer_id pk = p)) as [Ep|Ep].
        * destruct o; [discriminate|]. exists (Some m0), o'. split; [exact H1|]. split; [|exact H3].
          intros m Hm. rewrite Ep, lookup_insert in Hm. exact Hm.
        * exists o, o'. split; [exact H1|]. split; [|exact H3]. intros m Hm. rewrite lookup_insert_ne in Hm by exact Ep. auto.
      + exact Hnd.
      + exact Hus.
      + intros m Hm. rewrite lookup_insert_ne; [apply E, Hsub, Hm|]. intros <-.
        unfold attach_sids in C. cbn [flat_map] in C. apply NoDup_cons in C as [C _]. apply C. apply elem_of_list_In, Hm.
      + intros m p Hm. apply lookup_insert_Some in Hm as [[<- _]|[_ Hm]]; [|exact (F _ _ Hm)]. apply D. left. reflexivity.
      + intros m p. rewrite !lookup_insert_Some, G. split.
        * intros [[<- <-]|[Hne Hp]]; [left; auto|]. right. split; [|exact Hp]. intros <-. congruence.
        * intros [[<- <-]|[Hne Hp]]; [left; auto|]. right. split; [|exact Hp]. intros <-. apply G in Hp. congruence.
      + exact Hkeys.
  Qed.

  Lemma ninv_routine cfg keys n (c : clock) picks unks : ninv cfg keys n ->
    ninv cfg keys (Net (nt_open n) (nt_used n) (nt_queue n) (fst (routine (nt_mgr n) picks unks))
      (nt_out n ++ fst (snd (routine (nt_mgr n) picks unks)))).
  Proof.
    intros [A B C D E F G K].
    destruct (sess_act digest peer_id cfg c (nt_mgr n) (ARoutine picks unks)) as [E1 E2 _ _|p0 _ _ Hw|pk m0 ad ty Ee _ _];
      [|exfalso; destruct Hw as [(? & ? & ?)|[?|[?|[(? & ? & _)|(? & ? & _)]]]]; discriminate|discriminate].
    cbn [PeerManager.act] in E1, E2.
    split; cbn [nt_open nt_queue nt_mgr nt_used]; rewrite ?E1, ?E2; assumption.
  Qed.

  Lemma distinct_app {keys more} : distinct_ids peer_id (keys ++ more) -> distinct_ids peer_id keys.
  Proof. intros H k1 k2 H1 H2. apply H; apply in_or_app; left; assumption. Qed.

  Lemma ninv_run cfg c saved ls n : distinct_ids peer_id (net_keys ls) ->
    net_run cfg (net_start cfg c saved) ls n -> ninv cfg (net_keys ls) n.
  Proof.
    intros Hd Hr. induction Hr as [|ls n l n' _ IH Hok Hst]; [apply ninv_start|].
    rewrite net_keys_app in *. cbn [net_keys flat_map] in *. rewrite app_nil_r in *.
    specialize (IH (distinct_app Hd)).
    destruct l as [e|us msg pri|c1|c1 picks unks].
    - cbn in Hst. injection Hst as <-. apply ninv_report; assumption.
    - cbn [Keeper.net_step label_keys] in *. injection Hst as <-. rewrite app_nil_r. apply ninv_quiet; [repeat constructor|exact IH].
    - cbn [Keeper.net_step label_keys] in *. destruct (nt_queue n) as [|e q] eqn:Eq; [discriminate|]. cbv zeta in Hst.
      injection Hst as <-. rewrite app_nil_r. apply ninv_manage; assumption.
    - cbn [Keeper.net_step label_keys] in *. cbv zeta in Hst. injection Hst as <-. rewrite app_nil_r. eapply ninv_routine, IH.
      Unshelve. exact c1.
  Qed.

  (** what the manager went through *)
  Lemma run_reach cfg c saved ls n : net_run cfg (net_start cfg c saved) ls n ->
    exists h, reach cfg (start cfg c saved) h (nt_mgr n) /\
      (forall pk, In pk (opened_keys h ++ attach_keys (nt_queue n)) -> In pk (net_keys ls)).
  Proof.
    induction 1 as [|ls n l n' _ IH Hok Hst].
    - exists []. split; [constructor|]. intros pk [].
    - destruct IH as (h & Hr & Hk). rewrite net_keys_app.
      destruct l as [e|us msg pri|c1|c1 picks unks]; cbn [Keeper.net_step] in Hst.
      + injection Hst as <-. exists h. cbn [nt_mgr nt_queue]. split; [exact Hr|]. intros pk Hin.
        apply in_or_app. unfold attach_keys in Hin. rewrite flat_map_app, app_assoc in Hin. apply in_app_or in Hin as [Hin|Hin]; [left; auto|].
        right. pose proof (reports_plain e) as Hp. fold (attach_keys (reports e)) in Hin.
        destruct e as [e|[x|x|ad|ad]|e|e|e]; try (rewrite plain_keys in Hin by exact Hp; destruct Hin).
        * cbn in Hin |- *. destruct (sx_pk x); cbn in Hin |- *; [rewrite ?app_nil_r; exact Hin|destruct Hin].
        * cbn in Hin. unfold with_pid in Hin. destruct (sx_pk x); destruct Hin.
      + injection Hst as <-. exists h. cbn [nt_mgr nt_queue]. split; [exact Hr|]. intros pk Hin. apply in_or_app. left.
        unfold attach_keys in Hin. rewrite flat_map_app in Hin. cbn in Hin. rewrite app_nil_r in Hin. auto.
      + destruct (nt_queue n) as [|e q] eqn:Eq; [discriminate|]. cbv zeta in Hst. injection Hst as <-. cbn [nt_mgr nt_queue].
        exists (h ++ [(c1, AEvent e)]). split.
        * exact (reach_snoc digest peer_id cfg _ h (nt_mgr n) c1 (AEvent e) Hr I).
        * intros pk Hin. apply in_or_app. left. apply Hk. unfold opened_keys in Hin. rewrite flat_map_app, <- app_assoc in Hin.
          cbn [flat_map snd] in Hin. rewrite app_nil_r in Hin. exact Hin.
      + cbv zeta in Hst. injection Hst as <-. cbn [nt_mgr nt_queue]. exists (h ++ [(c1, ARoutine picks unks)]). split.
        * exact (reach_snoc digest peer_id cfg _ h (nt_mgr n) c1 (ARoutine picks unks) Hr Hok).
        * intros pk Hin. apply in_or_app. left. apply Hk. unfold opened_keys in Hin. rewrite flat_map_app, <- app_assoc in Hin. exact Hin.
  Qed.
End Facts.
