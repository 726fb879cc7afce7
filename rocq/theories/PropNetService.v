(** * C58: registering and listening take effect or fail. *)
From Coq Require Import List Bool NArith Lia.
From stdpp Require Import base decidable list gmap.
From Verif Require Import Base Types Endpoint NetMsg PeerManager NetService.
From Coq Require Strings.String.
Import String.StringSyntax.
Delimit Scope string_scope with string.
Import ListNotations.
Local Open Scope N_scope.

(** ** Specification *)
Definition is_poll (c : scall) : bool := match c with CPoll _ => true | _ => false end.
(** The address of the first call of [listen] the transport agreed to. *)
Fixpoint first_listen (l : list scall) : option maddr :=
  match l with
  | [] => None
  | CListen a true :: _ => Some a
  | CPoll _ :: _ => None
  | _ :: l => first_listen l
  end.
(** The registrations, in their order, that were accepted. *)
Definition endpoint_of (g : registration) : rstring := match g with RegHandler e _ _ | RegResponse e _ => e end.
Definition reactor_of (g : registration) : reactor :=
  match g with RegHandler _ ty h => Reactor ty (Some h) | RegResponse _ ty => Reactor ty None end.
(** [g] is for the same messages as [k]. *)
Definition root_of_reg (g : registration) : option bytes :=
  match parse_endpoint (endpoint_of g) with Ok e => match root e with Ok r => Some r | _ => None end | _ => None end.

(** ** Facts *)
Lemma register_ok m g m' : register m g = Ok m' -> exists r, root_of_reg g = Some r /\ m' = <[r := reactor_of g]> m.
Proof.
  unfold root_of_reg. destruct g as [e ty h|e ty]; cbn [register endpoint_of reactor_of];
    destruct (parse_endpoint e) as [p|x|]; try discriminate; cbn;
    destruct (scheme_of p) as [sch|x|]; try discriminate; cbn;
    destruct sch; try discriminate; destruct (root p) as [r|x|]; try discriminate; cbn; intros [= <-]; eauto.
Qed.
Lemma register_other m g m' r : register m g = Ok m' -> root_of_reg g <> Some r -> m' !! r = m !! r.
Proof. intros H Hr. apply register_ok in H as (r' & E & ->). apply lookup_insert_ne. congruence. Qed.
Lemma register_any m k g m' : register m g = Ok m' -> exists k', register k g = Ok k'.
Proof.
  destruct g as [e ty h|e ty]; cbn [register];
    destruct (parse_endpoint e) as [p|x|]; try discriminate; cbn;
    destruct (scheme_of p) as [sch|x|]; try discriminate; cbn;
    destruct sch; try discriminate; destruct (root p) as [r|x|]; try discriminate; cbn; eauto.
Qed.

Definition state_ok (s : service) : Prop :=
  sv_mgr s = sv_router s /\
  match sv_conn s with
  | NoListen => sv_router s = true /\ sv_announced s = None /\ sv_transport s = []
  | Ready => sv_router s = true /\ exists a, sv_announced s = Some a /\ sv_transport s = [a]
  | Taken => sv_router s = false /\ exists a, sv_announced s = Some a /\ sv_transport s = [a]
  end.
Lemma step_ok default s c s' : state_ok s -> s_step default (Some s) c = Some s' -> state_ok s'.
Proof.
  intros [Hm H]. destruct c as [g|a ok|ok]; cbn [s_step].
  - intros [= <-]. unfold s_register. destruct (register (sv_reactors s) g) as [m|x|]; cbn [snd]; try (split; assumption).
    destruct (sv_router s) eqn:Er; cbn [snd]; [|split; [congruence|rewrite Er; exact H]].
    split; cbn; [congruence|exact H].
  - intros [= <-]. unfold s_listen. destruct (sv_conn s) eqn:Ec; cbn [snd].
    + destruct ok; cbn [snd]; [|split; [exact Hm|rewrite Ec; exact H]]. destruct H as (Hr & Ha & Ht).
      split; cbn; [exact Hm|]. rewrite Hm, Hr, Ht. split; [reflexivity|]. exists a. split; reflexivity.
    + split; [exact Hm|rewrite Ec; exact H].
    + split; [exact Hm|rewrite Ec; exact H].
  - unfold s_poll. destruct (sv_conn s) eqn:Ec.
    + destruct ok; [|discriminate]. intros [= <-]. destruct H as (Hr & Ha & Ht). split; cbn; [reflexivity|]. rewrite Hm, Hr, Ha, Ht.
      split; [reflexivity|]. exists default. split; reflexivity.
    + intros [= <-]. destruct H as (Hr & a & Ha & Ht). split; cbn; [reflexivity|]. rewrite Hm, Hr, Ha, Ht.
      split; [reflexivity|]. exists a. split; reflexivity.
    + intros [= <-]. destruct H as (Hr & a & Ha & Ht). split; cbn; [reflexivity|]. rewrite Hm, Hr, Ha, Ht.
      split; [reflexivity|]. exists a. split; reflexivity.
Qed.
Lemma after_snoc default l c : s_after default (l ++ [c]) = s_step default (s_after default l) c.
Proof. unfold s_after. rewrite fold_left_app. reflexivity. Qed.
Lemma after_ok default l s : s_after default l = Some s -> state_ok s.
Proof.
  revert s. induction l as [|c l IH] using rev_ind; intros s.
  - intros [= <-]. split; [reflexivity|]. cbn. auto.
  - rewrite after_snoc. destruct (s_after default l) as [s0|]; [|discriminate]. apply step_ok, IH. reflexivity.
Qed.
Lemma router_held default l s : s_after default l = Some s -> sv_router s = negb (existsb is_poll l).
Proof.
  revert s. induction l as [|c l IH] using rev_ind; intros s; [intros [= <-]; reflexivity|].
  rewrite after_snoc, existsb_app. destruct (s_after default l) as [s0|] eqn:E; [|discriminate]. specialize (IH _ eq_refl).
  destruct c as [g|a ok|ok]; cbn [s_step existsb is_poll].
  - intros [= <-]. rewrite orb_false_r, <- IH. unfold s_register. destruct (register (sv_reactors s0) g); cbn [snd]; try reflexivity.
    destruct (sv_router s0) eqn:Er; cbn; congruence.
  - intros [= <-]. rewrite orb_false_r, <- IH. unfold s_listen. destruct (sv_conn s0); try reflexivity. destruct ok; reflexivity.
  - rewrite orb_true_r. unfold s_poll. destruct (sv_conn s0); [destruct ok; [|discriminate]|..]; intros [= <-]; reflexivity.
Qed.
Lemma first_listen_snoc l c :
  first_listen (l ++ [c]) = match first_listen l with
                            | Some a => Some a
                            | None => if existsb is_poll l then None else match c with CListen a true => Some a | _ => None end
                            end.
Proof.
  induction l as [|d l IH]; [destruct c as [| ? [] |]; reflexivity|]. cbn [app first_listen existsb]. rewrite IH.
  destruct d as [g|a [] |ok]; cbn [is_poll orb]; reflexivity.
Qed.

(** ** Theorems *)
(** However it was called before, a running service listens on exactly one
    address, the one its peers are told: the first address [listen] was called
    with that the transport agreed to, or the default one. *)
Theorem C58_listens_where_it_says : forall default l s,
  s_after default l = Some s -> existsb is_poll l = true ->
  let a := match first_listen l with Some a => a | None => default end in
  sv_transport s = [a] /\ sv_announced s = Some a.
Proof.
  intros default l. induction l as [|c l IH] using rev_ind; intros s Hs Hp; [discriminate|]. cbn zeta.
  pose proof (after_ok _ _ _ Hs) as Hok. pose proof (router_held _ _ _ Hs) as Hr.
  rewrite after_snoc in Hs. destruct (s_after default l) as [s0|] eqn:E; [|discriminate].
  rewrite existsb_app in Hp. cbn [existsb] in Hp. rewrite orb_false_r in Hp. rewrite first_listen_snoc.
  assert (forall t, s_after default l = Some t -> existsb is_poll l = false ->
    match first_listen l with Some a => sv_conn t = Ready /\ sv_announced t = Some a /\ sv_transport t = [a]
                            | None => sv_conn t = NoListen end) as Hbefore.
  { clear. revert l. intros l. induction l as [|c l IH] using rev_ind; intros t Ht Hp; [injection Ht as <-; reflexivity|].
    rewrite existsb_app in Hp. apply orb_false_iff in Hp as [Hp1 Hp2]. cbn [existsb] in Hp2. rewrite orb_false_r in Hp2.
    rewrite after_snoc in Ht. destruct (s_after default l) as [s0|] eqn:E; [|discriminate]. specialize (IH _ eq_refl Hp1).
    pose proof (after_ok _ _ _ E) as [Hm Hok].
    rewrite first_listen_snoc, Hp1. destruct c as [g|a ok|ok]; [| |discriminate Hp2]; cbn [s_step] in Ht; injection Ht as <-.
    - assert (forall P : service -> Prop, (forall m r, P (Service (sv_conn s0) (sv_mgr s0) r m (sv_announced s0) (sv_transport s0))) -> P s0 ->
        P (s_register g s0).2) as Hreg.
      { intros P H1 H2. unfold s_register. destruct (register (sv_reactors s0) g); cbn [snd]; try exact H2.
        destruct (sv_router s0); cbn [snd]; [apply H1|exact H2]. }
      destruct (first_listen l) as [b|]; apply Hreg; cbn; intros; exact IH.
    - unfold s_listen. destruct (first_listen l) as [b|].
      + destruct IH as (Hc & Ha & Ht). rewrite Hc. cbn [snd]. rewrite Hc. auto.
      + rewrite IH in *. destruct Hok as (Hr & Ha & Ht). destruct ok; cbn [snd]; [|exact IH].
        cbn. rewrite Hm, Hr, Ht. auto. }
  destruct (existsb is_poll l) eqn:El.
  - destruct (IH _ eq_refl eq_refl) as [Ht Ha]. clear IH Hbefore.
    replace (match match first_listen l with Some a => Some a | None => None end with Some a => a | None => default end)
      with (match first_listen l with Some a => a | None => default end) by (destruct (first_listen l); reflexivity).
    pose proof (router_held _ _ _ E) as Hr0. rewrite El in Hr0. cbn in Hr0.
    pose proof (after_ok _ _ _ E) as [Hm0 Hc0].
    assert (sv_conn s0 = Taken) as Hc by (destruct (sv_conn s0); [destruct Hc0 as [Hx _]|destruct Hc0 as [Hx _]|reflexivity]; congruence).
    destruct c as [g|a ok|ok]; cbn [s_step] in Hs; injection Hs as <- || (unfold s_poll in Hs; rewrite Hc in Hs; injection Hs as <-).
    + unfold s_register. destruct (register (sv_reactors s0) g); cbn [snd]; try (split; assumption). rewrite Hr0. split; assumption.
    + unfold s_listen. rewrite Hc. split; assumption.
    + cbn. rewrite Hm0, Hr0. split; assumption.
  - cbn in Hp. destruct c as [g|a ok|ok]; try discriminate Hp. cbn [s_step] in Hs. specialize (Hbefore _ E eq_refl).
    pose proof (after_ok _ _ _ E) as [Hm0 Hc0]. unfold s_poll in Hs.
    destruct (first_listen l) as [b|].
    + destruct Hbefore as (Hc & Ha & Ht). rewrite Hc in *. injection Hs as <-. cbn. rewrite Ha, Ht. split; [reflexivity|].
      destruct (sv_mgr s0); reflexivity.
    + rewrite Hbefore in *. destruct ok; [|discriminate]. injection Hs as <-. destruct Hc0 as (Hr0 & Ha & Ht). cbn. rewrite Ha, Ht, Hm0, Hr0.
      split; reflexivity.
Qed.

(** A registration accepted before the service runs takes effect and stays, for
    ever, as long as no later registration is for the same messages. *)
Theorem C58_registered_is_routed : forall default l g s s' m' s2 r,
  s_after default l = Some s -> existsb is_poll l = false ->
  s_register g s = (Ok tt, s') -> root_of_reg g = Some r ->
  Forall (fun c => match c with CRegister k => root_of_reg k <> Some r | _ => True end) m' ->
  s_after default (l ++ CRegister g :: m') = Some s2 ->
  sv_reactors s2 !! r = Some (reactor_of g).
Proof.
  intros default l g s s' m' s2 r Hs Hp Hg Hr Hm H2.
  assert (s_after default (l ++ [CRegister g]) = Some s' /\ sv_reactors s' !! r = Some (reactor_of g)) as [Hs' Hl].
  { rewrite after_snoc, Hs. cbn [s_step]. rewrite Hg. split; [reflexivity|]. pose proof (router_held _ _ _ Hs) as Hh. rewrite Hp in Hh.
    unfold s_register in Hg. destruct (register (sv_reactors s) g) as [m|x|] eqn:E; [|discriminate..]. rewrite Hh in Hg. injection Hg as <-.
    cbn. apply register_ok in E as (r' & Er & ->). rewrite Hr in Er. injection Er as <-. apply lookup_insert. }
  replace (l ++ CRegister g :: m') with ((l ++ [CRegister g]) ++ m') in H2 by (rewrite <- app_assoc; reflexivity).
  unfold s_after in H2, Hs'. rewrite fold_left_app, Hs' in H2. clear -Hm H2 Hl.
  revert s' Hl H2. induction Hm as [|c m Hc _ IH]; intros s' Hl H2; cbn [fold_left] in H2; [injection H2 as <-; exact Hl|].
  destruct (s_step default (Some s') c) as [t|] eqn:E.
  2:{ exfalso. clear -H2. induction m; cbn in H2; [discriminate|auto]. }
  apply (IH t); [|exact H2]. clear IH H2. destruct c as [k|a ok|ok]; cbn [s_step] in E.
  - injection E as <-. unfold s_register. destruct (register (sv_reactors s') k) as [m'|x|] eqn:Ek; cbn [snd]; try exact Hl.
    destruct (sv_router s'); cbn [snd sv_reactors]; [|exact Hl]. rewrite (register_other _ _ _ _ Ek Hc). exact Hl.
  - injection E as <-. unfold s_listen. destruct (sv_conn s'); try exact Hl. destruct ok; exact Hl.
  - unfold s_poll in E. destruct (sv_conn s'); [destruct ok; [|discriminate]|..]; injection E as <-; exact Hl.
Qed.

(** A registration is refused with an error exactly when its endpoint is
    malformed or of the wrong kind, running or not; ... *)
Theorem C58_refused_changes_nothing : forall g s r s', s_register g s = (r, s') -> r <> Ok tt -> s' = s.
Proof.
  intros g s r s'. unfold s_register. destruct (register (sv_reactors s) g) as [m|x|]; [|intros [= <- <-]; reflexivity..].
  destruct (sv_router s); intros [= <- <-] H; [congruence|reflexivity].
Qed.

(** ... but once the service runs every other one is answered with success and
    thrown away: the messages go on to the old handler, or to none. *)
Theorem C58_late_registration_ignored_refuted : forall default l s g m,
  s_after default l = Some s -> existsb is_poll l = true -> register ∅ g = Ok m ->
  s_register g s = (Ok tt, s).
Proof.
  intros default l s g m Hs Hp Hg. pose proof (router_held _ _ _ Hs) as Hr. rewrite Hp in Hr.
  destruct (register_any _ (sv_reactors s) _ _ Hg) as [k Hk]. unfold s_register. rewrite Hk, Hr. reflexivity.
Qed.

(** And so is every call of [listen] but the first that succeeded. *)
Theorem C58_second_listen_ignored_refuted : forall default l s a ok,
  s_after default l = Some s -> (first_listen l <> None \/ existsb is_poll l = true) ->
  s_listen a ok s = (LOk, s).
Proof.
  intros default l s a ok Hs H. unfold s_listen. destruct (sv_conn s) eqn:Ec; try reflexivity. exfalso.
  destruct (existsb is_poll l) eqn:Hp.
  - pose proof (router_held _ _ _ Hs) as Hr. rewrite Hp in Hr. pose proof (after_ok _ _ _ Hs) as [_ Hok]. rewrite Ec in Hok.
    destruct Hok as [Hx _]. cbn in Hr. congruence.
  - destruct H as [H|H]; [|discriminate].
    destruct (s_after default (l ++ [CPoll true])) as [t|] eqn:Et.
    + pose proof (C58_listens_where_it_says _ _ _ Et) as X. rewrite existsb_app in X. cbn in X. rewrite orb_true_r in X.
      destruct (X eq_refl) as [Ht _]. clear X. pose proof (after_ok _ _ _ Hs) as [_ Hok]. rewrite Ec in Hok. destruct Hok as (_ & _ & Htr).
      revert H Hs Ec Hp. clear. intros H Hs Ec Hp. revert s H Hs Ec. induction l as [|c l IH] using rev_ind; intros s H Hs Ec; [apply H; reflexivity|].
      rewrite existsb_app in Hp. apply orb_false_iff in Hp as [Hp1 Hp2].
      rewrite after_snoc in Hs. destruct (s_after default l) as [s0|] eqn:E; [|discriminate]. rewrite first_listen_snoc, Hp1 in H.
      destruct c as [g|b okb|okb]; [| |discriminate Hp2]; cbn [s_step] in Hs; injection Hs as <-.
      * apply (IH Hp1 s0); [|reflexivity|].
        -- intros X. rewrite X in H. congruence.
        -- revert Ec. unfold s_register. destruct (register (sv_reactors s0) g); cbn [snd]; try (intros Ec; exact Ec).
           destruct (sv_router s0); cbn; intros Ec; exact Ec.
      * unfold s_listen in Ec. destruct (sv_conn s0) eqn:Ec0; cbn [snd] in Ec; [|congruence..].
        destruct okb; cbn in Ec; [discriminate|]. apply (IH Hp1 s0); [|reflexivity|exact Ec0]. intros X. rewrite X in H. congruence.
    + rewrite after_snoc, Hs in Et. cbn [s_step s_poll] in Et. unfold s_poll in Et. rewrite Ec in Et. discriminate.
Qed.
Print Assumptions C58_listens_where_it_says.
Print Assumptions C58_registered_is_routed.
Print Assumptions C58_refused_changes_nothing.
Print Assumptions C58_late_registration_ignored_refuted.
Print Assumptions C58_second_listen_ignored_refuted.

(** ** The hypotheses are met: the node's registrations, a refused address, an
    accepted one, a further one; then it runs. *)
Definition at_port (p : N) : maddr := [Ip4 [x00; x00; x00; x00]; Tcp p].
Definition calls0 : list scall := map CRegister main_registrations ++ [CListen (at_port 1) false; CListen (at_port 2) true; CListen (at_port 3) true].
Definition summary (s : option service) : option (list maddr * nat) :=
  match s with Some s => Some (sv_transport s, size (sv_reactors s)) | None => None end.
Example calls0_run :
  summary (s_after (at_port 2337) calls0) = Some ([at_port 2], 9%nat) /\
  summary (s_after (at_port 2337) (calls0 ++ [CPoll false; CListen (at_port 4) true])) = Some ([at_port 2], 9%nat) /\
  summary (s_after (at_port 2337) [CListen (at_port 1) false; CPoll true]) = Some ([at_port 2337], 0%nat) /\
  s_after (at_port 2337) [CListen (at_port 1) false; CPoll false] = None /\
  first_listen calls0 = Some (at_port 2) /\ existsb is_poll calls0 = false.
Proof. vm_compute. repeat split; reflexivity. Qed.
(** A tenth endpoint registered while running. *)
Definition tenth : registration := RegHandler (RString (ascii "/gossip/pool/late"%string) eq_refl) TY_NewTxs H_NewTxs.
Example tenth_ignored :
  is_ok (register ∅ tenth) = true /\
  summary (s_after (at_port 2337) (calls0 ++ [CPoll false; CRegister tenth])) = Some ([at_port 2], 9%nat) /\
  summary (s_after (at_port 2337) (calls0 ++ [CRegister tenth; CPoll false])) = Some ([at_port 2], 10%nat).
Proof. vm_compute. repeat split; reflexivity. Qed.
