(** * C70-C73, C82: RPC correlation, endpoints, routing, envelopes, wiring *)
From Coq Require Import List Bool NArith Lia.
From Coq Require Strings.String.
From stdpp Require Import base decidable list gmap.
From Verif Require Import Base Proto Endpoint NetSpec EndpointFacts RpcMap RpcMapFacts NetMsg NetFacts.
Import ListNotations.
Import String.StringSyntax.
Delimit Scope string_scope with string.
Local Open Scope N_scope.

(** ** C71 *)

(** A string is an endpoint iff it is 1 to 120 bytes long, starts with one of
    the three schemes and has three or four components. *)
Theorem C71_accepted_iff : forall s,
  (exists e, parse_endpoint s = Ok e) <->
  1 <= blen (rs s) <= 120 /\
  (exists sch rest, rs s = scheme_text sch ++ rest) /\
  (exists cs, url_components (rs s) cs /\ (3 <= length cs <= 4)%nat).
Proof.
  intros s. split.
  - intros (e & H). apply parse_endpoint_iff in H as (_ & Hl & Hs & Hc). split; [exact Hl|]. split; [exact Hs|].
    exists (comps (rs s)). split; [apply url_components_ex|exact Hc].
  - intros (Hl & Hs & cs & Hu & Hc). apply url_components_fun in Hu as ->. exists (Endpoint s).
    apply parse_endpoint_iff. split; [reflexivity|]. split; [exact Hl|]. split; assumption.
Qed.

(** The parsed endpoint keeps the whole text. *)
Theorem C71_keeps_text : forall s e, parse_endpoint s = Ok e -> full_url e = s.
Proof. exact parse_endpoint_full. Qed.

(** Two endpoints are equal (the same key of the routing table) iff their
    first three components are. *)
Theorem C71_equality : forall s1 s2 e1 e2, parse_endpoint s1 = Ok e1 -> parse_endpoint s2 = Ok e2 ->
  (root e1 = root e2 <-> same_endpoint (rs s1) (rs s2)).
Proof.
  intros s1 s2 e1 e2 H1 H2. rewrite <- (parse_endpoint_full _ _ H1), <- (parse_endpoint_full _ _ H2).
  symmetry. apply same_endpoint_iff; eexists; eassumption.
Qed.

(** Equal endpoints have the same scheme, and it is the one the text starts with. *)
Theorem C71_scheme : forall s e, parse_endpoint s = Ok e ->
  exists sch rest, scheme_of e = Ok sch /\ rs s = scheme_text sch ++ rest /\
  (forall s' e', parse_endpoint s' = Ok e' -> same_endpoint (rs s) (rs s') -> scheme_of e' = Ok sch).
Proof.
  intros s e H. destruct (scheme_ok e ltac:(eexists; exact H)) as (sch & Hs & r & Hr).
  exists sch, r. split; [exact Hs|]. rewrite (parse_endpoint_full _ _ H) in Hr. split; [exact Hr|].
  intros s' e' H' Hsame. rewrite <- Hs. symmetry. apply same_root_same_scheme; [eexists; exact H|eexists; exact H'|].
  apply (C71_equality s s' e e' H H'). exact Hsame.
Qed.

(** Extending an endpoint with an id: possible iff it has three components
    and the result fits; the result is the same endpoint, and carries the id. *)
Theorem C71_extend : forall s e rid, parse_endpoint s = Ok e ->
  ((exists e', extend e (rid_str rid) = Ok e') <->
   (exists c0 c1 c2, url_components (rs s) [c0; c1; c2]) /\ blen (rs s) + 1 + blen (rs (rid_str rid)) <= 120) /\
  (forall e', extend e (rid_str rid) = Ok e' ->
     root e' = root e /\ scheme_of e' = scheme_of e /\ rpc_id e' = Ok rid /\
     rs (full_url e') = rs s ++ slash :: rs (rid_str rid)).
Proof.
  intros s e rid H. assert (P : exists s, parse_endpoint s = Ok e) by (exists s; exact H).
  pose proof (parse_endpoint_full _ _ H) as Hf. split.
  - rewrite (extend_iff e rid P), Hf. cbn [rs rid_str]. split; intros [H1 H2]; (split; [|exact H2]).
    + destruct (comps (rs s)) as [|c0 [|c1 [|c2 [|? ?]]]] eqn:E; cbn [length] in H1; try discriminate.
      exists c0, c1, c2. rewrite <- E. apply url_components_ex.
    + destruct H1 as (c0 & c1 & c2 & Hu). apply url_components_fun in Hu. rewrite <- Hu. reflexivity.
  - intros e' He. destruct (extend_spec e rid e' P He) as (Hu & _ & Hr & Hs & Hi).
    rewrite <- Hf. split; [exact Hr|]. split; [exact Hs|]. split; [exact Hi|exact Hu].
Qed.

(** The id read from an endpoint is the number after its last slash. *)
Theorem C71_rpc_id : forall e n, rpc_id e = Ok n <->
  exists before t, rs (full_url e) = before ++ slash :: t /\ ~ In slash t /\ u64_text t n.
Proof. exact rpc_id_iff. Qed.

(** Nothing here panics on a parsed endpoint. *)
Theorem C71_no_panic : forall s, parse_endpoint s <> Panic /\
  forall e, parse_endpoint s = Ok e -> scheme_of e <> Panic /\ root e <> Panic /\ forall c, extend e c <> Panic.
Proof.
  intros s. split; [apply parse_endpoint_np|]. intros e H.
  assert (P : exists s, parse_endpoint s = Ok e) by (exists s; exact H).
  destruct (scheme_ok e P) as (sch & -> & _). destruct (root_ok e P) as (r & -> & _).
  split; [discriminate|]. split; [discriminate|]. intros c. apply extend_np.
Qed.

Definition str (s : String.string) (H : utf8 (ascii s) = true) : rstring := RString (ascii s) H.
Arguments str s%string H.
Example C71_examples :
  is_ok (parse_endpoint (str "/rpc_call/consensus/sync_pull" eq_refl)) = true /\
  is_ok (parse_endpoint (str "/gossip//a///b/" eq_refl)) = true /\
  is_ok (parse_endpoint (str "/gossip/a" eq_refl)) = false /\
  is_ok (parse_endpoint (str "gossip/a/b" eq_refl)) = false /\
  is_ok (parse_endpoint (str "/gossip/a/b/c/d" eq_refl)) = false /\
  (let? e := parse_endpoint (str "/rpc_call/a/b" eq_refl) in
   let? e' := extend e (rid_str (wrap64 18446744073709551615)) in rpc_id e') = Ok (wrap64 18446744073709551615).
Proof. repeat (split; [vm_compute; reflexivity|]). vm_compute. reflexivity. Qed.

(** ** C70: every schedule of calls and responses, from any peers *)
Section C70.
  Context {V : Type}.
  Implicit Types (evs : list (revent V)) (s : rstate V) (c : call V).

  (** A call returns a value only if a response with that value, of the type
      asked for, came in on the session it was sent to, with its id; two calls
      never share a response; a completed call stays as it is. *)
  Theorem C70_answered_by_own_response : forall evs s, rrun rinit evs = Some s ->
    forall n c rid v t, st_calls s !! n = Some c -> c_st c = CDone rid v t ->
    In (EvResp (c_sid c) rid (c_ty c) v) evs /\
    (forall n' c' rid' v', st_calls s !! n' = Some c' -> c_st c' = CDone rid' v' t -> n' = n) /\
    (forall evs' s', rrun s evs' = Some s' -> st_calls s' !! n = Some c).
  Proof.
    intros evs s H n c rid v t Hc Hd. pose proof (rinv_run evs _ _ rinv_init H) as Hi.
    pose proof (i_done s Hi n c rid v t Hc Hd) as Hr. split; [|split].
    - destruct (resp_origin evs _ _ H t _ Hr) as [(r0 & H0 & _)|Hin]; [destruct t; discriminate H0|exact Hin].
    - intros n' c' rid' v' Hc' Hd'. eapply (i_once s Hi); eauto.
    - intros evs' s' H'. eapply rrun_done; eauto.
  Qed.

  (** Handling a response never touches a call on another session or with
      another id; nor any call at all if none waits for it. *)
  Theorem C70_foreign_response_harmless : forall evs s, rrun rinit evs = Some s ->
    forall s' n c, st_calls s !! n = Some c ->
    (forall sid rid ty v, rstep s (EvResp sid rid ty v) = Some s' -> st_calls s' !! n = Some c) /\
    (forall t r, st_resps s !! t = Some r -> rstep s (EvTake t) = Some s' ->
       (r_sid r <> c_sid c \/ c_st c <> CWait (r_rid r)) -> st_calls s' !! n = Some c).
  Proof.
    intros evs s H s' n c Hc. pose proof (rinv_run evs _ _ rinv_init H) as Hi. split.
    - intros sid rid ty v Hs. cbn [rstep] in Hs. injection Hs as <-. exact Hc.
    - intros t r Hr Hs Hno. apply rstep_take in Hs as (r' & Hr' & _ & ->). rewrite Hr in Hr'. injection Hr' as <-.
      cbn [st_calls]. apply taken_other; [exact Hi|exact Hc|]. intros [H1 H2]. destruct Hno as [Hno|Hno]; [congruence|contradiction].
  Qed.

  (** A waiting call is completed by the first well-typed response from its
      session with its id. *)
  Theorem C70_response_completes : forall evs s, rrun rinit evs = Some s ->
    forall n c rid, st_calls s !! n = Some c -> c_st c = CWait rid ->
    forall v, exists s', rrun s [EvResp (c_sid c) rid (c_ty c) v; EvTake (length (st_resps s))] = Some s' /\
      st_calls s' = <[n := Call (c_sid c) (c_ty c) (CDone rid v (length (st_resps s)))]> (st_calls s).
  Proof.
    intros evs s H n c rid Hc Hw v. pose proof (rinv_run evs _ _ rinv_init H) as Hi.
    pose proof (i_wait s Hi n c rid Hc Hw) as He.
    cbn [rrun rstep]. cbn [st_map st_calls st_resps].
    rewrite list_lookup_middle by reflexivity. unfold rm_contains, rm_remove. rewrite He. cbn [r_live r_sid r_rid r_ty r_val st_map].
    rewrite He. cbn [snd_ty]. rewrite Nat.eqb_refl. eexists. split; [reflexivity|]. cbn [st_calls].
    unfold send_to. cbn [snd_call]. rewrite Hc, Hw. reflexivity.
  Qed.

  (** ... even if it was checked earlier and other tasks ran in between: when
      its turn comes, the call is still served if it still waits. *)
  Theorem C70_delayed_response_completes : forall evs s, rrun rinit evs = Some s ->
    forall n c rid t v, st_calls s !! n = Some c -> c_st c = CWait rid ->
    st_resps s !! t = Some (Resp (c_sid c) rid (c_ty c) v true) ->
    exists s', rstep s (EvTake t) = Some s' /\
      st_calls s' = <[n := Call (c_sid c) (c_ty c) (CDone rid v t)]> (st_calls s).
  Proof.
    intros evs s H n c rid t v Hc Hw Hr. pose proof (rinv_run evs _ _ rinv_init H) as Hi.
    pose proof (i_wait s Hi n c rid Hc Hw) as He.
    cbn [rstep]. rewrite Hr. unfold rm_remove. cbn [r_live r_sid r_rid r_ty r_val]. rewrite He.
    cbn [snd_ty]. rewrite Nat.eqb_refl. eexists. split; [reflexivity|]. cbn [st_calls].
    unfold send_to. cbn [snd_call]. rewrite Hc, Hw. reflexivity.
  Qed.

  (** The first 2^64 calls of a node all have different ids; and at any time
      two calls waiting on the same session have different ids. *)
  Theorem C70_ids_unique : forall evs s, rrun rinit evs = Some s ->
    forall n1 n2 c1 c2, st_calls s !! n1 = Some c1 -> st_calls s !! n2 = Some c2 -> n1 <> n2 ->
    (N.of_nat (length (st_calls s)) <= two64 -> c_rid c1 <> c_rid c2) /\
    (forall r1 r2, c_st c1 = CWait r1 -> c_st c2 = CWait r2 -> c_sid c1 = c_sid c2 -> r1 <> r2).
  Proof.
    intros evs s H n1 n2 c1 c2 H1 H2 Hne. pose proof (rinv_run evs _ _ rinv_init H) as Hi. split.
    - intros Hl He. apply Hne. apply (f_equal u64v) in He. rewrite (i_ids s Hi _ _ H1), (i_ids s Hi _ _ H2) in He.
      apply lookup_lt_Some in H1, H2. apply two64_ids in He; [exact He|lia|lia].
    - intros r1 r2 W1 W2 Hs <-. pose proof (i_wait s Hi _ _ _ H1 W1) as E1. pose proof (i_wait s Hi _ _ _ H2 W2) as E2.
      rewrite Hs in E1. rewrite E1 in E2. injection E2 as _ E2. exact (Hne E2).
  Qed.

  (** A waiting call is failed ([RpcDropped]) only by a response from its own
      session, with its id, but of another type (as long as there were fewer
      than 2^64 calls). *)
  Theorem C70_dropped_only_by_own_peer : forall evs s e s', rrun rinit evs = Some s -> rstep s e = Some s' ->
    N.of_nat (length (st_calls s)) <= two64 ->
    forall n c c', st_calls s !! n = Some c -> c_st c = CWait (c_rid c) -> st_calls s' !! n = Some c' ->
    c_st c' = CDropped (c_rid c') ->
    exists t r, e = EvTake t /\ st_resps s !! t = Some r /\ r_sid r = c_sid c /\ r_rid r = c_rid c /\ r_ty r <> c_ty c.
  Proof.
    intros evs s e s' H Hs Hl n c c' Hc Hw Hc' Hd. pose proof (rinv_run evs _ _ rinv_init H) as Hi.
    destruct (rstep_call s e s' n c Hi Hs Hc) as (c1 & H1 & _ & _ & _ & Hx). rewrite Hc' in H1. injection H1 as <-.
    destruct Hx as [->|[(_ & Hx & _)|[(_ & _ & Hx)|[(m & d & _ & Hm & Hd' & _ & Hrid & _)|(t & r & -> & Hr & H1 & H2 & _ & [[_ Hx]|[Hx _]])]]]];
      try congruence.
    - exfalso. destruct (C70_ids_unique evs s H m n d c Hd' Hc Hm) as [Hu _]. exact (Hu Hl Hrid).
    - exists t, r. repeat split; assumption.
  Qed.

  (** Beyond 2^64 calls ids repeat. *)
  Theorem C70_ids_wrap : forall evs s, rrun rinit evs = Some s ->
    forall n m c d, st_calls s !! n = Some c -> st_calls s !! m = Some d -> N.of_nat m = N.of_nat n + two64 -> c_rid c = c_rid d.
  Proof.
    intros evs s H n m c d Hc Hd Hm. pose proof (rinv_run evs _ _ rinv_init H) as Hi. apply u64_eq.
    rewrite (i_ids s Hi _ _ Hc), (i_ids s Hi _ _ Hd), Hm. rewrite <- (N.mul_1_l two64) at 2. rewrite N.mod_add by discriminate. reflexivity.
  Qed.
End C70.

(** Two calls, an answer forged on another session, a duplicated answer: the
    forged one and the duplicate do nothing. *)
Example C70_example :
  option_map st_calls (rrun (V := N) rinit
    [EvNext 7 0; EvNext 8 0; EvInsert 1; EvInsert 0;
     EvResp 8 (wrap64 0) 0 66; EvResp 7 (wrap64 0) 0 11; EvResp 7 (wrap64 0) 0 12; EvTake 1; EvTake 2])
  = Some [Call 7 0 (CDone (wrap64 0) 11 1); Call 8 0 (CWait (wrap64 1))].
Proof. vm_compute. do 3 f_equal. Qed.

(** ** C72 *)
Section C72.
  Context (decompress : bytes -> nres bytes) {V : Type} (mdecode : rtype -> bytes -> nres V).
  Notation receive := (receive decompress mdecode).

  (** Whatever arrives has one effect, that of the registration of its
      endpoint (the last one made): its handler runs once on the decoded
      content, with the session it came from; or, for a response endpoint, the
      call it answers gets the decoded content. *)
  Theorem C72_delivered_to_registered : forall regs n sid raw eff n',
    register_all ∅ regs = Ok (nn_reactors n) ->
    receive n sid raw = (Ok eff, n') ->
    exists des msg g, decompress raw = Ok des /\ nm_decode des = Ok msg /\ last_registration regs (nm_url msg) g /\
      match g with
      | RegHandler _ ty h =>
          exists v rid, mdecode ty (nm_content msg) = Ok v /\ eff = Process (Some h) sid rid v /\ nn_rpc n' = nn_rpc n
      | RegResponse _ ty =>
          exists v rid c, mdecode ty (nm_content msg) = Ok v /\ eff = Answer (Sender ty c) v /\
            entries (nn_rpc n) !! (sid, u64v rid) = Some (Sender ty c) /\
            nn_rpc n' = RpcMap (next_id (nn_rpc n)) (delete (sid, u64v rid) (entries (nn_rpc n)))
      end /\ nn_reactors n' = nn_reactors n.
  Proof. exact (receive_delivered decompress mdecode). Qed.

  (** Conversely, a message whose url parses goes to the last registration
      of its endpoint. *)
  Theorem C72_registered_gets_it : forall regs m raw des msg g,
    register_all ∅ regs = Ok m -> decompress raw = Ok des -> nm_decode des = Ok msg ->
    (exists e, parse_endpoint (nm_url msg) = Ok e) -> last_registration regs (nm_url msg) g ->
    route decompress m raw =
      Ok (match g with RegHandler _ ty h => Reactor ty (Some h) | RegResponse _ ty => Reactor ty None end, msg).
  Proof.
    intros regs m raw des msg g Hm Hd Hn Hp Hg. apply (route_iff decompress regs m raw _ _ Hm).
    exists des, g. split; [exact Hd|]. split; [exact Hn|]. split; [exact Hp|]. split; [exact Hg|]. destruct g; reflexivity.
  Qed.

  (** Everything else is dropped: no effect, and the node is unchanged --
      except that a response of the wrong type costs the call it names. *)
  Theorem C72_dropped_without_effect : forall n sid raw x n', receive n sid raw = (Err x, n') ->
    n' = n \/ (x = UnexpectedRpcSender /\ exists rid s,
      entries (nn_rpc n) !! (sid, u64v rid) = Some s /\
      n' = NetNode (RpcMap (next_id (nn_rpc n)) (delete (sid, u64v rid) (entries (nn_rpc n)))) (nn_reactors n)).
  Proof. exact (receive_error decompress mdecode). Qed.

  (** No message makes the node panic, unless a message codec does. *)
  Theorem C72_no_panic : forall n sid raw, (forall b, decompress b <> Panic) -> (forall ty b, mdecode ty b <> Panic) ->
    fst (receive n sid raw) <> Panic.
  Proof. exact (receive_np decompress mdecode). Qed.
End C72.

(** ** C73 *)
Definition envelope_fits (data : bytes) : Prop :=
  forall u, blen (rs u) <= 120 -> fits (nm_encode (NetMsg u data)).

Section C73.
  Context (compress decompress : bytes -> nres bytes).
  Context {V : Type} (mdecode : rtype -> bytes -> nres V) (mencode : rtype -> V -> nres bytes).
  Hypothesis lossless : forall b c, compress b = Ok c -> decompress c = Ok b.

  (** The envelope itself. *)
  Theorem C73_envelope : forall m, fits (nm_encode m) -> nm_decode (nm_encode m) = Ok m.
  Proof. exact nm_roundtrip. Qed.

  (** A gossiped message reaches the handler registered for its endpoint with
      the value that was sent. *)
  Theorem C73_gossip : forall url ty v data raw regs n h u sid rest,
    package_message compress mencode url ty v = Ok raw ->
    mencode ty v = Ok data -> mdecode ty data = Ok v -> envelope_fits data ->
    rs url = GOSSIP_SCHEME ++ rest ->
    register_all ∅ regs = Ok (nn_reactors n) -> last_registration regs url (RegHandler u ty h) ->
    receive decompress mdecode n sid raw = (Ok (Process (Some h) sid None v), n).
  Proof.
    intros url ty v data raw regs n h u sid rest Hp He Hd Hf Hs Hm Hg.
    assert (Hpe : exists e, parse_endpoint url = Ok e).
    { unfold package_message in Hp. destruct (parse_endpoint url) as [e|x|]; [exists e; reflexivity|discriminate..]. }
    destruct Hpe as (e & Hpe). assert (Hl : blen (rs url) <= 120) by (apply parse_endpoint_iff in Hpe; apply Hpe).
    eapply (gossip_roundtrip compress decompress mdecode mencode lossless); eauto.
    exists e. split; [exact Hpe|]. apply (scheme_unique e Gossip rest). rewrite (parse_endpoint_full _ _ Hpe). exact Hs.
  Qed.

  (** A call reaches the handler registered at the other node with the value
      sent and a context naming session and id; what that handler answers
      through that context completes this very call with the value answered. *)
  Theorem C73_rpc : forall nA nB regsA regsB cno sid sidB call_url resp_url ty rty h u u' req ans dreq dans rid raw mA rest,
    mencode ty req = Ok dreq -> mdecode ty dreq = Ok req -> envelope_fits dreq ->
    mencode rty ans = Ok dans -> mdecode rty dans = Ok ans -> envelope_fits dans ->
    register_all ∅ regsA = Ok (nn_reactors nA) -> last_registration regsA resp_url (RegResponse u' rty) ->
    register_all ∅ regsB = Ok (nn_reactors nB) -> last_registration regsB call_url (RegHandler u ty h) ->
    rs call_url = RPC_CALL_SCHEME ++ rest ->
    rpc_call compress mencode (nn_rpc nA) cno (Some sid) call_url ty req rty = (Ok (rid, sid, raw), mA) ->
    receive decompress mdecode nB sidB raw = (Ok (Process (Some h) sidB (Some rid) req), nB) /\
    forall rawB, rpc_response compress mencode (Some sidB) (Some rid) resp_url rty ans = Ok (sidB, rawB) ->
    forall nA', nn_reactors nA' = nn_reactors nA ->
      entries (nn_rpc nA') !! (sid, u64v rid) = entries mA !! (sid, u64v rid) ->
      fst (receive decompress mdecode nA' sid rawB) = Ok (Answer (Sender rty cno) ans).
  Proof.
    intros nA nB regsA regsB cno sid sidB call_url resp_url ty rty h u u' req ans dreq dans rid raw mA rest
      E1 D1 F1 E2 D2 F2 RA LA RB LB Hs Hcall.
    assert (Hfit : forall d url e e', envelope_fits d -> parse_endpoint url = Ok e -> extend e (rid_str rid) = Ok e' ->
              fits (nm_encode (NetMsg (full_url e') d))).
    { intros d url e e' Hf Hp Hx. apply Hf. unfold extend in Hx. pose proof (parse_endpoint_full _ _ Hx) as Hu.
      apply parse_endpoint_iff in Hx as (_ & Hl & _). rewrite Hu. apply Hl. }
    split.
    - eapply (call_delivered compress decompress mdecode mencode lossless); eauto.
      intros e Hp. apply (scheme_unique e RpcCall rest). rewrite (parse_endpoint_full _ _ Hp). exact Hs.
    - intros rawB Hresp nA' Hr Hent.
      erewrite (answer_delivered compress decompress mdecode mencode lossless); [reflexivity|exact Hresp|exact E2|exact D2| |eauto|rewrite Hr; exact RA|exact LA|].
      + intros e Hp. apply (registered_kind regsA _ resp_url e (RegResponse u' rty) RA Hp LA).
      + rewrite Hent. unfold rpc_call in Hcall. destruct (parse_endpoint call_url) as [e|x|]; [|discriminate..].
        cbn [rm_next] in Hcall. injection Hcall as Hok <-. cbn [rm_insert entries].
        rewrite E1 in Hok. cbn [rbind] in Hok. destruct (extend e (rid_str (next_id (nn_rpc nA)))) as [e'|x|]; cbn [rbind] in Hok; [|discriminate..].
        destruct (compress _); cbn [rbind] in Hok; [|discriminate..]. injection Hok as <- _. apply lookup_insert.
  Qed.

  (** A call on an endpoint that already has four components fails, and its
      registration is never removed by the caller. *)
  Theorem C70_failed_call_leaks_refuted : forall m cno sid url ty v rty e,
    parse_endpoint url = Ok e -> (exists c0 c1 c2 c3, url_components (rs url) [c0; c1; c2; c3]) ->
    exists x, rpc_call compress mencode m cno (Some sid) url ty v rty =
      (x, RpcMap (wrap64 (next_id m + 1)) (<[(sid, u64v (next_id m)) := Sender rty cno]> (entries m))) /\
      (forall r, x <> Ok r).
  Proof.
    intros m cno sid url ty v rty e Hp (c0 & c1 & c2 & c3 & Hu). apply url_components_fun in Hu.
    eapply call_leaks; [exact Hp|]. rewrite <- Hu. reflexivity.
  Qed.
End C73.

(** ** C82: the endpoints src/main.rs registers *)
Lemma main_registers : exists m, register_all ∅ main_registrations = Ok m.
Proof. eexists. vm_compute. reflexivity. Qed.

(** Every endpoint is well-formed and no two registrations collide. *)
Theorem C82_registration_succeeds :
  (exists m, register_all ∅ main_registrations = Ok m) /\
  (forall i j gi gj, main_registrations !! i = Some gi -> main_registrations !! j = Some gj ->
     same_endpoint (rs (reg_end gi)) (rs (reg_end gj)) -> i = j).
Proof.
  split; [exact main_registers|]. intros i j gi gj Hi Hj (c0 & c1 & c2 & r1 & r2 & U1 & U2).
  apply url_components_fun in U1, U2.
  assert (Hf : firstn 3 (comps (rs (reg_end gi))) = firstn 3 (comps (rs (reg_end gj)))) by (rewrite <- U1, <- U2; reflexivity).
  clear U1 U2. unfold main_registrations in Hi, Hj.
  do 9 (destruct i as [|i]; [cbn in Hi; injection Hi as <-;
    do 9 (destruct j as [|j]; [cbn in Hj; injection Hj as <-; first [reflexivity | exfalso; vm_compute in Hf; discriminate Hf]|]);
    cbn in Hj; rewrite ?lookup_nil in Hj; discriminate Hj|]).
  cbn in Hi. rewrite ?lookup_nil in Hi. discriminate Hi.
Qed.

(** No message whatsoever makes a node run the handler that answers
    transaction pull requests; a pull request is given to the handler for
    gossiped transactions, which never answers. *)
Theorem C82_pull_requests_unanswered_refuted :
  forall (decompress : bytes -> nres bytes) V (mdecode : rtype -> bytes -> nres V) n sid raw eff n',
  register_all ∅ main_registrations = Ok (nn_reactors n) ->
  receive decompress mdecode n sid raw = (Ok eff, n') ->
  (forall sid' rid v, eff <> Process (Some H_PullTxs) sid' rid v) /\
  (forall des msg, decompress raw = Ok des -> nm_decode des = Ok msg ->
     same_endpoint (rs (nm_url msg)) (rs END_RPC_PULL_TXS) ->
     exists rid v, eff = Process (Some H_NewTxs) sid rid v /\ responds H_NewTxs = false).
Proof.
  intros decompress V mdecode n sid raw eff n' Hm Hr.
  destruct (receive_delivered decompress mdecode _ n sid raw eff n' Hm Hr) as (des & msg & g & Hd & Hn & (l1 & l2 & Hl & Hs & _) & Hx & _).
  assert (Hin : In g main_registrations) by (rewrite Hl; apply in_or_app; right; left; reflexivity). clear Hl. split.
  - intros sid' rid v ->. destruct g as [u ty h|u ty]; cbn [delivered] in Hx.
    + destruct Hx as (v' & rid' & _ & Hx & _). injection Hx as <- _ _ _.
      repeat (destruct Hin as [Hin|Hin]; [discriminate Hin|]). destruct Hin.
    + destruct Hx as (v' & rid' & c & _ & Hx & _). discriminate Hx.
  - intros des' msg' Hd' Hn' Hsame. rewrite Hd in Hd'. injection Hd' as <-. rewrite Hn in Hn'. injection Hn' as <-.
    destruct Hs as (c0 & c1 & c2 & r1 & r2 & U1 & U2). destruct Hsame as (d0 & d1 & d2 & r3 & r4 & U3 & U4).
    apply url_components_fun in U1, U2, U3, U4. rewrite <- U2 in U3. injection U3 as -> -> -> ->.
    assert (Hf : firstn 3 (comps (rs (reg_end g))) = firstn 3 (comps (rs END_RPC_PULL_TXS))) by (rewrite <- U1, <- U4; reflexivity).
    clear U1 U2 U4.
    assert (g = RegHandler END_RPC_PULL_TXS TY_NewTxs H_NewTxs) as ->.
    { repeat (destruct Hin as [<-|Hin]; [first [reflexivity | exfalso; vm_compute in Hf; discriminate Hf]|]). destruct Hin. }
    cbn [delivered] in Hx. destruct Hx as (v & rid & _ & -> & _). exists rid, v. split; reflexivity.
Qed.

(** Non-vacuity: identity compression, byte messages; a whole call and answer
    between two nodes, and a pull request. *)
Definition ex_reg : list registration :=
  [RegHandler RPC_SYNC_PULL 7 6; RegResponse RPC_RESP_SYNC_PULL 8]%nat.
Definition ex_node : net_node := NetNode rm_new (match register_all ∅ ex_reg with Ok m => m | _ => ∅ end).
Definition ex_codec (_ : rtype) (b : bytes) : nres bytes := Ok b.
Example C73_example :
  exists rid raw mA rawB,
    rpc_call Ok ex_codec (nn_rpc ex_node) 5 (Some 3) RPC_SYNC_PULL 7 [Byte.x01; Byte.x02] 8 = (Ok (rid, 3, raw), mA) /\
    fst (receive Ok ex_codec ex_node 9 raw) = Ok (Process (Some 6%nat) 9 (Some rid) [Byte.x01; Byte.x02]) /\
    rpc_response Ok ex_codec (Some 9) (Some rid) RPC_RESP_SYNC_PULL 8 [Byte.x03] = Ok (9, rawB) /\
    fst (receive Ok ex_codec (NetNode mA (nn_reactors ex_node)) 3 rawB) = Ok (Answer (Sender 8 5) [Byte.x03]) /\
    fst (receive Ok ex_codec (NetNode mA (nn_reactors ex_node)) 4 rawB) = Err UnknownRpc.
Proof.
  exists (wrap64 0). eexists _, _, _.
  split; [vm_compute; do 4 f_equal; apply u64_eq; reflexivity|].
  split; [vm_compute; do 3 f_equal; apply u64_eq; reflexivity|].
  split; [vm_compute; reflexivity|]. split; vm_compute; reflexivity.
Qed.

Definition main_node : net_node := NetNode rm_new (match register_all ∅ main_registrations with Ok m => m | _ => ∅ end).
Example C82_example :
  exists rid raw mA, rpc_call Ok ex_codec rm_new 0 (Some 3) END_RPC_PULL_TXS TY_PullTxs [Byte.x01] TY_PushTxs = (Ok (rid, 3, raw), mA) /\
    fst (receive Ok ex_codec main_node 9 raw) = Ok (Process (Some H_NewTxs) 9 (Some rid) [Byte.x01]).
Proof.
  exists (wrap64 0). eexists _, _.
  split; [vm_compute; do 4 f_equal; apply u64_eq; reflexivity|]. vm_compute; do 3 f_equal; apply u64_eq; reflexivity.
Qed.

Print Assumptions C70_answered_by_own_response.
Print Assumptions C70_foreign_response_harmless.
Print Assumptions C70_response_completes.
Print Assumptions C70_delayed_response_completes.
Print Assumptions C70_ids_unique.
Print Assumptions C70_dropped_only_by_own_peer.
Print Assumptions C70_ids_wrap.
Print Assumptions C70_failed_call_leaks_refuted.
Print Assumptions C71_accepted_iff.
Print Assumptions C71_equality.
Print Assumptions C71_scheme.
Print Assumptions C71_extend.
Print Assumptions C71_rpc_id.
Print Assumptions C71_no_panic.
Print Assumptions C72_delivered_to_registered.
Print Assumptions C72_registered_gets_it.
Print Assumptions C72_dropped_without_effect.
Print Assumptions C72_no_panic.
Print Assumptions C73_envelope.
Print Assumptions C73_gossip.
Print Assumptions C73_rpc.
Print Assumptions C82_registration_succeeds.
Print Assumptions C82_pull_requests_unanswered_refuted.
