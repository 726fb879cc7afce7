From Coq Require Import List Bool NArith Lia ZifyNat.
From stdpp Require Import base decidable list gmap.
From Verif Require Import Base BaseFacts Proto ProtoFacts Endpoint NetSpec EndpointFacts RpcMap NetMsg.
Import ListNotations.
Local Open Scope N_scope.

Lemma rt_m_net : rt m_net. Proof. unfold m_net. rt_tac. Qed.

Lemma nm_roundtrip m : fits (nm_encode m) -> nm_decode (nm_encode m) = Ok m.
Proof.
  intros H. unfold nm_decode, nm_encode in *. rewrite pdecode_pencode by (exact rt_m_net || exact H).
  destruct m; reflexivity.
Qed.

(** ** The registrations that decide where a url goes *)
Definition reg_end (g : registration) : rstring := match g with RegHandler e _ _ | RegResponse e _ => e end.
Definition reg_reactor (g : registration) : reactor :=
  match g with RegHandler _ ty h => Reactor ty (Some h) | RegResponse _ ty => Reactor ty None end.
Definition last_registration (regs : list registration) (url : rstring) (g : registration) : Prop :=
  exists l1 l2, regs = l1 ++ g :: l2 /\ same_endpoint (rs (reg_end g)) (rs url) /\
    Forall (fun g' => ~ same_endpoint (rs (reg_end g')) (rs url)) l2.

Lemma same_endpoint_iff e1 e2 : parsed e1 -> parsed e2 ->
  (same_endpoint (rs (full_url e1)) (rs (full_url e2)) <-> root e1 = root e2).
Proof.
  intros H1 H2. rewrite root_eq_iff by assumption. split.
  - intros (c0 & c1 & c2 & r1 & r2 & U1 & U2). apply url_components_fun in U1, U2. rewrite <- U1, <- U2. reflexivity.
  - intros H. destruct (parsed_comps e1 H1) as (c0 & c1 & c2 & r & Ea & _).
    destruct (parsed_comps e2 H2) as (d0 & d1 & d2 & r' & Eb & _). rewrite Ea, Eb in H. cbn in H. injection H as -> -> ->.
    exists d0, d1, d2, r, r'. rewrite <- Ea, <- Eb. split; apply url_components_ex.
Qed.

Lemma register_ok m g m' : register m g = Ok m' ->
  exists e r, parse_endpoint (reg_end g) = Ok e /\ root e = Ok r /\ m' = <[r := reg_reactor g]> m /\
    (match g with RegHandler _ _ _ => scheme_of e = Ok Gossip \/ scheme_of e = Ok RpcCall | RegResponse _ _ => scheme_of e = Ok RpcResponse end).
Proof.
  destruct g as [u ty h|u ty]; cbn [register rbind reg_end reg_reactor].
  - destruct (parse_endpoint u) as [e|x|] eqn:E; cbn [rbind]; [|discriminate..].
    destruct (scheme_of e) as [[| |]|x|] eqn:Es; cbn [rbind]; try discriminate.
    + destruct (root e) as [r|x|] eqn:Er; cbn [rbind]; [|discriminate..]. intros [= <-].
      exists e, r. repeat split; try assumption. left. exact Es.
    + destruct (root e) as [r|x|] eqn:Er; cbn [rbind]; [|discriminate..]. intros [= <-].
      exists e, r. repeat split; try assumption. right. exact Es.
  - destruct (parse_endpoint u) as [e|x|] eqn:E; cbn [rbind]; [|discriminate..].
    destruct (scheme_of e) as [[| |]|x|] eqn:Es; cbn [rbind]; try discriminate.
    destruct (root e) as [r|x|] eqn:Er; cbn [rbind]; [|discriminate..]. intros [= <-].
    exists e, r. repeat split; assumption.
Qed.

Lemma register_all_snoc l : forall m g m', register_all m (l ++ [g]) = Ok m' ->
  exists m1, register_all m l = Ok m1 /\ register m1 g = Ok m'.
Proof.
  induction l as [|g0 l IH]; intros m g m'; cbn [app register_all].
  - destruct (register m g) as [m1|x|] eqn:E; cbn [rbind]; try discriminate. intros [= <-]. exists m. split; [reflexivity|exact E].
  - destruct (register m g0) as [m1|x|] eqn:E; cbn [rbind]; try discriminate. apply IH.
Qed.

Lemma lookup_registered regs : forall m, register_all ∅ regs = Ok m ->
  forall e r, parsed e -> root e = Ok r ->
  forall ra, m !! r = Some ra <-> exists g, last_registration regs (full_url e) g /\ ra = reg_reactor g.
Proof.
  induction regs as [|g regs IH] using rev_ind; intros m Hm e r He Hr ra.
  - cbn in Hm. injection Hm as <-. rewrite lookup_empty. split; [discriminate|].
    intros (g & (l1 & l2 & H & _) & _). destruct l1; discriminate.
  - apply register_all_snoc in Hm as (m1 & H1 & H2). apply register_ok in H2 as (e' & r' & Hp & Hr' & -> & _).
    assert (He' : parsed e') by (eexists; exact Hp).
    pose proof (parse_endpoint_full _ _ Hp) as Hf.
    assert (Hs : same_endpoint (rs (reg_end g)) (rs (full_url e)) <-> r' = r).
    { rewrite <- Hf, same_endpoint_iff by assumption. rewrite Hr, Hr'. split; [intros [= ->]; reflexivity|intros ->; reflexivity]. }
    destruct (decide (r' = r)) as [->|Hne].
    + rewrite lookup_insert. split.
      * intros [= <-]. exists g. split; [|reflexivity]. exists regs, []. split; [reflexivity|]. split; [apply Hs; reflexivity|constructor].
      * intros (g' & (l1 & l2 & Hl & Hg & Hno) & ->). destruct l2 as [|x l2 _] using rev_ind.
        -- apply app_inj_tail in Hl as [_ <-]. reflexivity.
        -- exfalso. change (g' :: l2 ++ [x]) with ((g' :: l2) ++ [x]) in Hl. rewrite app_assoc in Hl. apply app_inj_tail in Hl as [_ <-].
           apply Forall_app in Hno as [_ Hno]. inversion_clear Hno as [|? ? Hx _]. apply Hx, Hs. reflexivity.
    + rewrite lookup_insert_ne by assumption. rewrite (IH m1 H1 e r He Hr ra). split.
      * intros (g' & (l1 & l2 & -> & Hg & Hno) & ->). exists g'. split; [|reflexivity].
        exists l1, (l2 ++ [g]). rewrite <- app_assoc. split; [reflexivity|]. split; [exact Hg|].
        apply Forall_app. split; [exact Hno|]. constructor; [|constructor]. rewrite Hs. exact Hne.
      * intros (g' & (l1 & l2 & Hl & Hg & Hno) & ->). destruct l2 as [|x l2 _] using rev_ind.
        -- apply app_inj_tail in Hl as [_ <-]. exfalso. apply Hne, Hs, Hg.
        -- change (g' :: l2 ++ [x]) with ((g' :: l2) ++ [x]) in Hl. rewrite app_assoc in Hl. apply app_inj_tail in Hl as [-> <-].
           exists g'. split; [|reflexivity]. exists l1, l2. split; [reflexivity|]. split; [exact Hg|].
           apply Forall_app in Hno as [Hno _]. exact Hno.
Qed.

Lemma registered_scheme regs m : register_all ∅ regs = Ok m ->
  forall g, In g regs -> exists e, parse_endpoint (reg_end g) = Ok e /\
    (match g with RegHandler _ _ _ => scheme_of e = Ok Gossip \/ scheme_of e = Ok RpcCall | RegResponse _ _ => scheme_of e = Ok RpcResponse end).
Proof.
  revert m. induction regs as [|g regs IH] using rev_ind; intros m Hm g' Hg; [destruct Hg|].
  apply register_all_snoc in Hm as (m1 & H1 & H2). apply in_app_or in Hg as [Hg|[<-|[]]]; [eapply IH; eauto|].
  apply register_ok in H2 as (e & r & Hp & _ & _ & Hs). exists e. split; assumption.
Qed.

Section Net.
  Context (compress decompress : bytes -> nres bytes).
  Context {V : Type} (mdecode : rtype -> bytes -> nres V) (mencode : rtype -> V -> nres bytes).
  Notation route := (route decompress).
  Notation react := (react mdecode).
  Notation receive := (receive decompress mdecode).
  Notation package_message := (package_message compress mencode).
  Notation rpc_call := (rpc_call compress mencode).
  Notation rpc_response := (rpc_response compress mencode).

  Lemma route_iff regs m raw ra msg : register_all ∅ regs = Ok m ->
    (route m raw = Ok (ra, msg) <->
     exists des g, decompress raw = Ok des /\ nm_decode des = Ok msg /\ (exists e, parse_endpoint (nm_url msg) = Ok e) /\
       last_registration regs (nm_url msg) g /\ ra = reg_reactor g).
  Proof.
    intros Hm. unfold NetMsg.route. split.
    - destruct (decompress raw) as [des|x|]; cbn [rbind]; [|discriminate..].
      destruct (nm_decode des) as [msg'|x|] eqn:Ed; cbn [rbind]; [|discriminate..].
      destruct (parse_endpoint (nm_url msg')) as [e|x|] eqn:Ep; cbn [rbind]; [|discriminate..].
      destruct (root e) as [r|x|] eqn:Er; cbn [rbind]; [|discriminate..].
      destruct (m !! r) as [ra'|] eqn:El; cbn [ok_or rbind]; [|discriminate]. intros [= <- <-].
      apply (lookup_registered regs m Hm e r) in El as (g & Hg & ->); [|eexists; exact Ep|exact Er].
      rewrite (parse_endpoint_full _ _ Ep) in Hg.
      exists des, g. repeat split; try assumption. exists e. exact Ep.
    - intros (des & g & -> & Hd & (e & Hp) & Hg & ->). cbn [rbind]. rewrite Hd. cbn [rbind]. rewrite Hp. cbn [rbind].
      destruct (root_ok e ltac:(eexists; exact Hp)) as (r & Hr & _). rewrite Hr. cbn [rbind].
      assert (El : m !! r = Some (reg_reactor g)).
      { apply (lookup_registered regs m Hm e r ltac:(eexists; exact Hp) Hr). exists g. rewrite (parse_endpoint_full _ _ Hp). split; [exact Hg|reflexivity]. }
      rewrite El. reflexivity.
  Qed.

  (** Scheme of the message = scheme of the registration. *)
  Lemma registered_kind regs m url e g : register_all ∅ regs = Ok m -> parse_endpoint url = Ok e ->
    last_registration regs url g ->
    match g with RegHandler _ _ _ => scheme_of e = Ok Gossip \/ scheme_of e = Ok RpcCall | RegResponse _ _ => scheme_of e = Ok RpcResponse end.
  Proof.
    intros Hm Hp (l1 & l2 & -> & Hs & _).
    destruct (registered_scheme _ m Hm g) as (e' & Hp' & Hk). { apply in_or_app. right. left. reflexivity. }
    assert (scheme_of e = scheme_of e') as Heq.
    { apply same_root_same_scheme; [eexists; exact Hp|eexists; exact Hp'|]. symmetry.
      apply same_endpoint_iff; [eexists; exact Hp'|eexists; exact Hp|].
      rewrite (parse_endpoint_full _ _ Hp), (parse_endpoint_full _ _ Hp'). exact Hs. }
    rewrite Heq. exact Hk.
  Qed.

  (** Who handles an incoming message, and how. *)
  Definition delivered (g : registration) (sid : session) (msg : net_msg) (eff : effect V) (before after : rpc_map) : Prop :=
    match g with
    | RegHandler _ ty h => exists v rid, mdecode ty (nm_content msg) = Ok v /\ eff = Process (Some h) sid rid v /\ after = before
    | RegResponse _ ty => exists v rid c, mdecode ty (nm_content msg) = Ok v /\ eff = Answer (Sender ty c) v /\
        entries before !! (sid, u64v rid) = Some (Sender ty c) /\
        after = RpcMap (next_id before) (delete (sid, u64v rid) (entries before))
    end.

  Lemma receive_delivered regs n sid raw eff n' : register_all ∅ regs = Ok (nn_reactors n) ->
    receive n sid raw = (Ok eff, n') ->
    exists des msg g, decompress raw = Ok des /\ nm_decode des = Ok msg /\ last_registration regs (nm_url msg) g /\
      delivered g sid msg eff (nn_rpc n) (nn_rpc n') /\ nn_reactors n' = nn_reactors n.
  Proof.
    intros Hm. unfold NetMsg.receive. destruct (route (nn_reactors n) raw) as [[ra msg]|x|] eqn:Er; [|discriminate..].
    apply (route_iff regs _ _ _ _ Hm) in Er as (des & g & Hd & Hdec & (e & Hp) & Hg & ->).
    pose proof (registered_kind regs _ _ e g Hm Hp Hg) as Hk.
    unfold NetMsg.react. rewrite Hp. cbn [rbind].
    destruct (mdecode (ra_ty (reg_reactor g)) (nm_content msg)) as [v|x|] eqn:Ev; cbn [rbind]; [|discriminate..].
    destruct g as [u ty h|u ty]; cbn [reg_reactor ra_ty ra_handler] in *.
    - destruct Hk as [Hk|Hk]; rewrite Hk; cbn [rbind].
      + intros [= <- <-]. exists des, msg, (RegHandler u ty h). repeat split; try assumption. exists v, None. repeat split. exact Ev.
      + destruct (rpc_id e) as [rid|x|]; [|discriminate..].
        intros [= <- <-]. exists des, msg, (RegHandler u ty h). repeat split; try assumption. exists v, (Some rid). repeat split. exact Ev.
    - rewrite Hk. cbn [rbind]. destruct (rpc_id e) as [rid|x|]; [|discriminate..].
      unfold rm_take, rm_contains, rm_remove.
      destruct (entries (nn_rpc n) !! (sid, u64v rid)) as [s|] eqn:Es; [|discriminate].
      destruct (Nat.eqb (snd_ty s) ty) eqn:Et; [|discriminate]. apply Nat.eqb_eq in Et. intros [= <- <-].
      exists des, msg, (RegResponse u ty). repeat split; try assumption.
      exists v, rid, (snd_call s). destruct s as [sty sc]; cbn [snd_ty snd_call] in *. subst sty. repeat split; assumption.
  Qed.

  (** Anything that is not an effect leaves the node as it was, except that an
      answer of the wrong type forgets the call it was meant for. *)
  Lemma receive_error n sid raw x n' : receive n sid raw = (Err x, n') ->
    n' = n \/ (x = UnexpectedRpcSender /\ exists rid s,
      entries (nn_rpc n) !! (sid, u64v rid) = Some s /\
      n' = NetNode (RpcMap (next_id (nn_rpc n)) (delete (sid, u64v rid) (entries (nn_rpc n)))) (nn_reactors n)).
  Proof.
    unfold NetMsg.receive. destruct (route (nn_reactors n) raw) as [[ra msg]|y|]; [|intros [= _ <-]; left; reflexivity|discriminate].
    assert (Hid : NetNode (nn_rpc n) (nn_reactors n) = n) by (destruct n; reflexivity).
    unfold NetMsg.react.
    destruct (rbind _ _) as [[[e content] sch]|y|]; [|intros [= _ <-]; left; exact Hid|discriminate].
    destruct sch; [discriminate| |].
    - destruct (rpc_id e); [discriminate|intros [= _ <-]; left; exact Hid|discriminate].
    - destruct (rpc_id e) as [rid|y|]; [|intros [= _ <-]; left; exact Hid|discriminate].
      unfold rm_take, rm_contains, rm_remove.
      destruct (entries (nn_rpc n) !! (sid, u64v rid)) as [s|] eqn:Es.
      + destruct (Nat.eqb (snd_ty s) (ra_ty ra)); [discriminate|]. intros [= <- <-]. right. split; [reflexivity|].
        exists rid, s. split; [exact Es|reflexivity].
      + intros [= _ <-]. left. exact Hid.
  Qed.

  Lemma receive_np n sid raw : (forall b, decompress b <> Panic) -> (forall ty b, mdecode ty b <> Panic) ->
    fst (receive n sid raw) <> Panic.
  Proof.
    intros Hd Hv. unfold NetMsg.receive, NetMsg.route.
    destruct (decompress raw) as [des|x|] eqn:Ed; cbn [rbind]; [|discriminate|destruct (Hd _ Ed)].
    assert (Hn : nm_decode des <> Panic). { unfold nm_decode. destruct (pdecode m_net des) as [[u [c t]]|]; discriminate. }
    destruct (nm_decode des) as [msg|x|] eqn:Em; cbn [rbind]; [|discriminate|destruct (Hn eq_refl)].
    destruct (parse_endpoint (nm_url msg)) as [e|x|] eqn:Ep; cbn [rbind]; [|discriminate|destruct (parse_endpoint_np _ Ep)].
    assert (Pe : parsed e) by (eexists; exact Ep).
    destruct (root_ok e Pe) as (r & Hr & _). rewrite Hr. cbn [rbind].
    destruct (nn_reactors n !! r) as [ra|]; cbn [ok_or rbind]; [|discriminate].
    unfold NetMsg.react. rewrite Ep. cbn [rbind].
    destruct (mdecode (ra_ty ra) (nm_content msg)) as [v|x|] eqn:Ev; cbn [rbind]; [|discriminate|destruct (Hv _ _ Ev)].
    destruct (scheme_ok e Pe) as (sch & Hs & _). rewrite Hs. cbn [rbind].
    assert (Hi : rpc_id e <> Panic).
    { unfold rpc_id. destruct (after_last_slash _) as [[|c t]|]; try discriminate. destruct (parse_u64 _); discriminate. }
    destruct sch; [discriminate| |].
    - destruct (rpc_id e); [discriminate|discriminate|congruence].
    - destruct (rpc_id e) as [rid|x|]; [|discriminate|congruence].
      unfold rm_take. destruct (rm_contains (nn_rpc n) sid rid); [|discriminate].
      unfold rm_remove. destruct (entries (nn_rpc n) !! (sid, u64v rid)) as [s|]; [|discriminate].
      destruct (Nat.eqb _ _); discriminate.
  Qed.

  (** ** Round trips *)
  Hypothesis lossless : forall b c, compress b = Ok c -> decompress c = Ok b.

  Lemma gossip_roundtrip url ty v raw regs m h u sid n data :
    package_message url ty v = Ok raw ->
    mencode ty v = Ok data -> fits (nm_encode (NetMsg url data)) ->
    mdecode ty data = Ok v ->
    register_all ∅ regs = Ok m -> nn_reactors n = m -> last_registration regs url (RegHandler u ty h) ->
    (exists e, parse_endpoint url = Ok e /\ scheme_of e = Ok Gossip) ->
    receive n sid raw = (Ok (Process (Some h) sid None v), n).
  Proof.
    intros Hp He Hf Hd Hm Hn Hg (e & Hpe & Hs). unfold NetMsg.package_message in Hp.
    rewrite Hpe in Hp. cbn [rbind] in Hp. rewrite He in Hp. cbn [rbind] in Hp.
    rewrite (parse_endpoint_full _ _ Hpe) in Hp.
    assert (Hr : route (nn_reactors n) raw = Ok (Reactor ty (Some h), NetMsg url data)).
    { rewrite Hn. apply (route_iff regs m raw _ _ Hm). exists (nm_encode (NetMsg url data)), (RegHandler u ty h).
      split; [apply lossless, Hp|]. split; [apply nm_roundtrip, Hf|]. split; [exists e; exact Hpe|]. split; [exact Hg|reflexivity]. }
    unfold NetMsg.receive. rewrite Hr. unfold NetMsg.react. cbn [nm_url nm_content ra_ty ra_handler]. rewrite Hpe. cbn [rbind].
    rewrite Hd. cbn [rbind]. rewrite Hs. cbn [rbind]. destruct n; reflexivity.
  Qed.

  Lemma call_delivered m cno sid url ty v rty rid raw m' data regs h u nB sidB :
    rpc_call m cno (Some sid) url ty v rty = (Ok (rid, sid, raw), m') ->
    mencode ty v = Ok data -> mdecode ty data = Ok v ->
    (forall e, parse_endpoint url = Ok e -> scheme_of e = Ok RpcCall) ->
    (forall e e', parse_endpoint url = Ok e -> extend e (rid_str rid) = Ok e' -> fits (nm_encode (NetMsg (full_url e') data))) ->
    register_all ∅ regs = Ok (nn_reactors nB) -> last_registration regs url (RegHandler u ty h) ->
    receive nB sidB raw = (Ok (Process (Some h) sidB (Some rid) v), nB).
  Proof.
    unfold NetMsg.rpc_call. destruct (parse_endpoint url) as [e|x|] eqn:Ep; [|discriminate..].
    cbn [rm_next]. intros [= H <-] He Hd Hsch Hfit Hm Hg. rewrite He in H. cbn [rbind] in H.
    destruct (extend e (rid_str (next_id m))) as [e'|x|] eqn:Ex; cbn [rbind] in H; [|discriminate..].
    destruct (compress (nm_encode (NetMsg (full_url e') data))) as [c|x|] eqn:Ec; cbn [rbind] in H; [|discriminate..].
    injection H as <- <-.
    assert (Pe : parsed e) by (eexists; exact Ep).
    pose proof (extend_spec e _ e' Pe Ex) as (Hu & _ & Hroot & Hs' & Hrid).
    specialize (Hsch e eq_refl). specialize (Hfit e e' eq_refl Ex). rewrite Hsch in Hs'.
    assert (Pe' : parse_endpoint (full_url e') = Ok e').
    { unfold extend in Ex. pose proof (parse_endpoint_full _ _ Ex) as Hfu. rewrite Hfu. exact Ex. }
    assert (Hg' : last_registration regs (full_url e') (RegHandler u ty h)).
    { destruct Hg as (l1 & l2 & Hl & Hsame & Hno). exists l1, l2. split; [exact Hl|].
      assert (Hco : forall u1, same_endpoint u1 (rs url) <-> same_endpoint u1 (rs (full_url e'))).
      { assert (Hc : firstn 3 (comps (rs (full_url e'))) = firstn 3 (comps (rs url))).
        { apply root_eq_iff in Hroot; [|eexists; exact Pe'|exact Pe]. rewrite (parse_endpoint_full _ _ Ep) in Hroot. exact Hroot. }
        destruct (parsed_comps e Pe) as (c0 & c1 & c2 & r1 & E1 & _). rewrite (parse_endpoint_full _ _ Ep) in E1.
        destruct (parsed_comps e' ltac:(eexists; exact Pe')) as (d0 & d1 & d2 & r2 & E2 & _).
        rewrite E1, E2 in Hc. cbn in Hc. injection Hc as -> -> ->.
        intros u1. split; intros (a0 & a1 & a2 & r & r' & U1 & U2); apply url_components_fun in U2.
        - rewrite E1 in U2. injection U2 as -> -> -> ->. exists c0, c1, c2, r, r2. split; [exact U1|]. rewrite <- E2. apply url_components_ex.
        - rewrite E2 in U2. injection U2 as -> -> -> ->. exists c0, c1, c2, r, r1. split; [exact U1|]. rewrite <- E1. apply url_components_ex. }
      split; [apply Hco; exact Hsame|]. eapply Forall_impl; [exact Hno|]. cbn. intros g' Hg'. rewrite <- Hco. exact Hg'. }
    assert (Hr : route (nn_reactors nB) c = Ok (Reactor ty (Some h), NetMsg (full_url e') data)).
    { apply (route_iff regs _ c _ _ Hm). exists (nm_encode (NetMsg (full_url e') data)), (RegHandler u ty h).
      split; [apply lossless, Ec|]. split; [apply nm_roundtrip, Hfit|]. split; [exists e'; exact Pe'|]. split; [exact Hg'|reflexivity]. }
    unfold NetMsg.receive. rewrite Hr. unfold NetMsg.react. cbn [nm_url nm_content ra_ty ra_handler]. rewrite Pe'. cbn [rbind].
    rewrite Hd. cbn [rbind]. rewrite Hs'. cbn [rbind]. rewrite Hrid. destruct nB; reflexivity.
  Qed.

  Lemma answer_delivered url ty v rid sidB raw data regs u nA sid cno :
    rpc_response (Some sidB) (Some rid) url ty v = Ok (sidB, raw) ->
    mencode ty v = Ok data -> mdecode ty data = Ok v ->
    (forall e, parse_endpoint url = Ok e -> scheme_of e = Ok RpcResponse) ->
    (forall e e', parse_endpoint url = Ok e -> extend e (rid_str rid) = Ok e' -> fits (nm_encode (NetMsg (full_url e') data))) ->
    register_all ∅ regs = Ok (nn_reactors nA) -> last_registration regs url (RegResponse u ty) ->
    entries (nn_rpc nA) !! (sid, u64v rid) = Some (Sender ty cno) ->
    receive nA sid raw = (Ok (Answer (Sender ty cno) v),
      NetNode (RpcMap (next_id (nn_rpc nA)) (delete (sid, u64v rid) (entries (nn_rpc nA)))) (nn_reactors nA)).
  Proof.
    unfold NetMsg.rpc_response. destruct (parse_endpoint url) as [e|x|] eqn:Ep; cbn [rbind]; [|discriminate..].
    cbn [ok_or rbind]. intros H He Hd Hsch Hfit Hm Hg Hent. rewrite He in H. cbn [rbind] in H.
    destruct (extend e (rid_str rid)) as [e'|x|] eqn:Ex; cbn [rbind] in H; [|discriminate..].
    destruct (compress (nm_encode (NetMsg (full_url e') data))) as [c|x|] eqn:Ec; cbn [rbind] in H; [|discriminate..].
    injection H as <-.
    assert (Pe : parsed e) by (eexists; exact Ep).
    pose proof (extend_spec e _ e' Pe Ex) as (Hu & _ & Hroot & Hs' & Hrid).
    specialize (Hsch e eq_refl). specialize (Hfit e e' eq_refl Ex). rewrite Hsch in Hs'.
    assert (Pe' : parse_endpoint (full_url e') = Ok e').
    { unfold extend in Ex. pose proof (parse_endpoint_full _ _ Ex) as Hfu. rewrite Hfu. exact Ex. }
    assert (Hg' : last_registration regs (full_url e') (RegResponse u ty)).
    { destruct Hg as (l1 & l2 & Hl & Hsame & Hno). exists l1, l2. split; [exact Hl|].
      assert (Hco : forall u1, same_endpoint u1 (rs url) <-> same_endpoint u1 (rs (full_url e'))).
      { assert (Hc : firstn 3 (comps (rs (full_url e'))) = firstn 3 (comps (rs url))).
        { apply root_eq_iff in Hroot; [|eexists; exact Pe'|exact Pe]. rewrite (parse_endpoint_full _ _ Ep) in Hroot. exact Hroot. }
        destruct (parsed_comps e Pe) as (c0 & c1 & c2 & r1 & E1 & _). rewrite (parse_endpoint_full _ _ Ep) in E1.
        destruct (parsed_comps e' ltac:(eexists; exact Pe')) as (d0 & d1 & d2 & r2 & E2 & _).
        rewrite E1, E2 in Hc. cbn in Hc. injection Hc as -> -> ->.
        intros u1. split; intros (a0 & a1 & a2 & r & r' & U1 & U2); apply url_components_fun in U2.
        - rewrite E1 in U2. injection U2 as -> -> -> ->. exists c0, c1, c2, r, r2. split; [exact U1|]. rewrite <- E2. apply url_components_ex.
        - rewrite E2 in U2. injection U2 as -> -> -> ->. exists c0, c1, c2, r, r1. split; [exact U1|]. rewrite <- E1. apply url_components_ex. }
      split; [apply Hco; exact Hsame|]. eapply Forall_impl; [exact Hno|]. cbn. intros g' Hg'. rewrite <- Hco. exact Hg'. }
    assert (Hr : route (nn_reactors nA) c = Ok (Reactor ty None, NetMsg (full_url e') data)).
    { apply (route_iff regs _ c _ _ Hm). exists (nm_encode (NetMsg (full_url e') data)), (RegResponse u ty).
      split; [apply lossless, Ec|]. split; [apply nm_roundtrip, Hfit|]. split; [exists e'; exact Pe'|]. split; [exact Hg'|reflexivity]. }
    unfold NetMsg.receive. rewrite Hr. unfold NetMsg.react. cbn [nm_url nm_content ra_ty ra_handler]. rewrite Pe'. cbn [rbind].
    rewrite Hd. cbn [rbind]. rewrite Hs'. cbn [rbind]. rewrite Hrid.
    unfold rm_take, rm_contains, rm_remove. rewrite Hent. cbn [snd_ty]. rewrite Nat.eqb_refl. reflexivity.
  Qed.

  (** A call that fails after it registered leaves its entry behind. *)
  Lemma call_leaks m cno sid url ty v rty e : parse_endpoint url = Ok e ->
    length (comps (rs url)) = 4%nat ->
    exists x, rpc_call m cno (Some sid) url ty v rty =
      (x, RpcMap (wrap64 (next_id m + 1)) (<[(sid, u64v (next_id m)) := Sender rty cno]> (entries m))) /\
      (forall r, x <> Ok r).
  Proof using compress mencode.
    intros Hp Hc. unfold NetMsg.rpc_call. rewrite Hp. cbn [rm_next]. eexists. split; [reflexivity|].
    intros r H. destruct (mencode ty v); cbn [rbind] in H; [|discriminate..].
    destruct (extend e (rid_str (next_id m))) as [e'|x|] eqn:Ex; cbn [rbind] in H; [|discriminate..].
    destruct (extend_spec e _ e' ltac:(eexists; exact Hp) Ex) as (_ & H3 & _). rewrite (parse_endpoint_full _ _ Hp) in H3. rewrite Hc in H3. discriminate H3.
  Qed.
End Net.
