(** * C82: what is sent to an endpoint of another node runs the handler meant for it *)
From Coq Require Import List Bool NArith Lia.
From Coq Require Strings.String.
From stdpp Require Import base decidable list gmap.
From Verif Require Import Base Proto Endpoint NetSpec EndpointFacts RpcMap RpcMapFacts NetMsg NetFacts PropNet.
Import ListNotations.
Import String.StringSyntax.
Delimit Scope string_scope with string.
Local Open Scope N_scope.

(** ** Specification: who listens where *)
(** What a node gossips: transactions (core/mempool/src/adapter/mod.rs:114-115),
    proposals, aggregated votes, votes and the height of its chain
    (core/consensus/src/engine.rs:193-256; sent as bytes, read as a struct of
    one field of bytes, which bincode writes alike). *)
Definition gossip_wiring : list (bytes * rtype * nat) :=
  [ (ascii "/gossip/mempool/new_txs"%string, TY_NewTxs, H_NewTxs);
    (ascii "/gossip/consensus/signed_proposal"%string, TY_Proposal, H_Proposal);
    (ascii "/gossip/consensus/qc"%string, TY_QC, H_QC);
    (ascii "/gossip/consensus/signed_vote"%string, TY_Vote, H_Vote);
    (ascii "/gossip/consensus/rich_epoch_id"%string, TY_RichEpochID, H_RichEpochID) ].

Lemma same_as (u1 u2 : bytes) : firstn 3 (comps u1) = firstn 3 (comps u2) -> (3 <= length (comps u1))%nat -> (3 <= length (comps u2))%nat -> same_endpoint u1 u2.
Proof.
  intros H L1 L2. pose proof (url_components_ex u1) as U1. pose proof (url_components_ex u2) as U2.
  destruct (comps u1) as [|a0 [|a1 [|a2 r1]]]; cbn in L1; try lia. destruct (comps u2) as [|b0 [|b1 [|b2 r2]]]; cbn in L2; try lia.
  cbn in H. injection H as -> -> ->. exists b0, b1, b2, r1, r2. auto.
Qed.
Lemma not_same (u1 u2 : bytes) : firstn 3 (comps u1) <> firstn 3 (comps u2) -> ~ same_endpoint u1 u2.
Proof.
  intros H (c0 & c1 & c2 & r1 & r2 & U1 & U2). apply url_components_fun in U1, U2. apply H. rewrite <- U1, <- U2. reflexivity.
Qed.
(** The last registration for an endpoint, computed. *)
Lemma last_at (l1 l2 : list registration) (g : registration) (url : rstring) : main_registrations = l1 ++ g :: l2 ->
  (firstn 3 (comps (rs (reg_end g))) = firstn 3 (comps (rs url)) /\ (3 <= length (comps (rs (reg_end g))))%nat /\ (3 <= length (comps (rs url)))%nat) ->
  Forall (fun g' => firstn 3 (comps (rs (reg_end g'))) <> firstn 3 (comps (rs url))) l2 -> last_registration main_registrations url g.
Proof.
  intros E (H1 & H2 & H3) Hf. exists l1, l2. split; [exact E|]. split; [apply same_as; assumption|].
  eapply Forall_impl; [exact Hf|]. intros g' H. apply not_same, H.
Qed.
Ltac wired a b := apply (last_at a b); [reflexivity|split; [vm_compute; reflexivity|split; vm_compute; lia]|repeat constructor; vm_compute; discriminate].

Section C82.
  Context (compress decompress : bytes -> nres bytes).
  Context {V : Type} (mdecode : rtype -> bytes -> nres V) (mencode : rtype -> V -> nres bytes).
  Hypothesis lossless : forall b c, compress b = Ok c -> decompress c = Ok b.

  (** A gossiped message runs the handler meant for it, with the value sent, on
      every node that started as main.rs does. *)
  Theorem C82_gossip_reaches_its_handler : forall url ty h v data raw n sid,
    (rs url, ty, h) ∈ gossip_wiring ->
    package_message compress mencode url ty v = Ok raw ->
    mencode ty v = Ok data -> mdecode ty data = Ok v -> envelope_fits data ->
    register_all ∅ main_registrations = Ok (nn_reactors n) ->
    receive decompress mdecode n sid raw = (Ok (Process (Some h) sid None v), n).
  Proof.
    intros url ty h v data raw n sid Hw Hp He Hd Hf Hm.
    assert (exists u rest, rs url = GOSSIP_SCHEME ++ rest /\ last_registration main_registrations url (RegHandler u ty h)) as (u & rest & Hs & Hg).
    { destruct url as [ub uok]. cbn [rs] in Hw. unfold gossip_wiring in Hw.
      apply elem_of_cons in Hw as [Hw|Hw]; [|apply elem_of_cons in Hw as [Hw|Hw]; [|apply elem_of_cons in Hw as [Hw|Hw]; [|apply elem_of_cons in Hw as [Hw|Hw]; [|apply elem_of_cons in Hw as [Hw|Hw]]]]];
        try (apply elem_of_nil in Hw as []); injection Hw as E1 E2 E3; subst.
      - exists END_GOSSIP_NEW_TXS, (skipn (length GOSSIP_SCHEME) (ascii "/gossip/mempool/new_txs"%string)). split; [vm_compute; reflexivity|].
        wired (firstn 0 main_registrations) (skipn 1 main_registrations).
      - exists END_GOSSIP_SIGNED_PROPOSAL, (skipn (length GOSSIP_SCHEME) (ascii "/gossip/consensus/signed_proposal"%string)). split; [vm_compute; reflexivity|].
        wired (firstn 3 main_registrations) (skipn 4 main_registrations).
      - exists END_GOSSIP_AGGREGATED_VOTE, (skipn (length GOSSIP_SCHEME) (ascii "/gossip/consensus/qc"%string)). split; [vm_compute; reflexivity|].
        wired (firstn 4 main_registrations) (skipn 5 main_registrations).
      - exists END_GOSSIP_SIGNED_VOTE, (skipn (length GOSSIP_SCHEME) (ascii "/gossip/consensus/signed_vote"%string)). split; [vm_compute; reflexivity|].
        wired (firstn 5 main_registrations) (skipn 6 main_registrations).
      - exists END_GOSSIP_RICH_EPOCH_ID, (skipn (length GOSSIP_SCHEME) (ascii "/gossip/consensus/rich_epoch_id"%string)). split; [vm_compute; reflexivity|].
        wired (firstn 6 main_registrations) (skipn 7 main_registrations). }
    exact (C73_gossip compress decompress mdecode mencode lossless url ty v data raw main_registrations n h u sid rest Hp He Hd Hf Hs Hm Hg).
  Qed.

  (** Asking another node for epochs or transactions while synchronising
      (core/consensus/src/adapter.rs:153-195): the request runs the handler that
      answers it (message.rs:138-180), and what this answers completes the call. *)
  Theorem C82_sync_request_answered : forall nA nB cno sid sidB call_url resp_url req ans dreq dans rid raw mA,
    rs call_url = ascii "/rpc_call/consensus/sync_pull"%string -> rs resp_url = ascii "/rpc_resp/consensus/sync_pull"%string ->
    mencode TY_ConsRpcRequest req = Ok dreq -> mdecode TY_ConsRpcRequest dreq = Ok req -> envelope_fits dreq ->
    mencode TY_ConsRpcResponse ans = Ok dans -> mdecode TY_ConsRpcResponse dans = Ok ans -> envelope_fits dans ->
    register_all ∅ main_registrations = Ok (nn_reactors nA) -> register_all ∅ main_registrations = Ok (nn_reactors nB) ->
    rpc_call compress mencode (nn_rpc nA) cno (Some sid) call_url TY_ConsRpcRequest req TY_ConsRpcResponse = (Ok (rid, sid, raw), mA) ->
    receive decompress mdecode nB sidB raw = (Ok (Process (Some H_SyncPull) sidB (Some rid) req), nB) /\
    forall rawB, rpc_response compress mencode (Some sidB) (Some rid) resp_url TY_ConsRpcResponse ans = Ok (sidB, rawB) ->
    forall nA', nn_reactors nA' = nn_reactors nA ->
      entries (nn_rpc nA') !! (sid, u64v rid) = entries mA !! (sid, u64v rid) ->
      fst (receive decompress mdecode nA' sid rawB) = Ok (Answer (Sender TY_ConsRpcResponse cno) ans).
  Proof.
    intros nA nB cno sid sidB [cu cok] [ru rok] req ans dreq dans rid raw mA Eu Er He Hd Hf He' Hd' Hf' HA HB Hc. cbn [rs] in Eu, Er. subst cu ru.
    refine (C73_rpc compress decompress mdecode mencode lossless nA nB main_registrations main_registrations cno sid sidB _ _ TY_ConsRpcRequest TY_ConsRpcResponse
      H_SyncPull RPC_SYNC_PULL RPC_RESP_SYNC_PULL req ans dreq dans rid raw mA (skipn (length RPC_CALL_SCHEME) (ascii "/rpc_call/consensus/sync_pull"%string)) He Hd Hf He' Hd' Hf' HA _ HB _ _ Hc).
    - wired (firstn 8 main_registrations) (skipn 9 main_registrations).
    - wired (firstn 7 main_registrations) (skipn 8 main_registrations).
    - vm_compute. reflexivity.
  Qed.
End C82.
Print Assumptions C82_gossip_reaches_its_handler.
Print Assumptions C82_sync_request_answered.

(** Identity compression and codec: a vote, and a synchronisation request. *)
Example C82_vote_example : exists raw,
  package_message (V := bytes) Ok ex_codec END_GOSSIP_SIGNED_VOTE TY_Vote [Byte.x01] = Ok raw /\
  receive Ok ex_codec main_node 9 raw = (Ok (Process (Some H_Vote) 9 None [Byte.x01]), main_node).
Proof. eexists. split; [vm_compute; reflexivity|]. vm_compute. reflexivity. Qed.
Example C82_sync_example :
  exists rid raw mA, rpc_call (V := bytes) Ok ex_codec rm_new 0 (Some 3) RPC_SYNC_PULL TY_ConsRpcRequest [Byte.x01] TY_ConsRpcResponse = (Ok (rid, 3, raw), mA) /\
    fst (receive Ok ex_codec main_node 9 raw) = Ok (Process (Some H_SyncPull) 9 (Some rid) [Byte.x01]).
Proof.
  exists (wrap64 0). eexists _, _.
  split; [vm_compute; do 4 f_equal; apply u64_eq; reflexivity|]. vm_compute; do 3 f_equal; apply u64_eq; reflexivity.
Qed.
