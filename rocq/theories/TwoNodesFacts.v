(** * TwoNodesFacts: a request over the wire gets the peer's own answer. *)
From Verif Require Import Base BaseFacts Types FixedCodec FixedCodecFacts StateAdapter Executor Mempool Merkle Bincode ConsMsg PropConsMsg
  Proto ProtoFacts Wire WireFacts Storage StorageSpec Consensus ConsSpec SyncSpec SyncFacts Endpoint NetSpec EndpointFacts
  RpcMap RpcMapFacts NetMsg NetFacts PropNet PropWiring TwoNodes.
From stdpp Require Import gmap.
Local Open Scope N_scope.

(** Messages below 2^63 bytes. *)
Definition small_message (b : bytes) : Prop := blen b < 2 ^ 63.
Lemma small_fits b : small_message b -> fits b.
Proof. unfold small_message, fits. change (2 ^ 63) with 9223372036854775808. unfold two64. lia. Qed.
Lemma small_envelope b : small_message b -> envelope_fits b.
Proof.
  intros H u Hu. unfold nm_encode, m_net. rewrite !pencode_cons, pencode_nil, app_nil_r. unfold fits. rewrite blen_app.
  pose proof (bytes_out_len 2 b) as H2. pose proof (bytes_out_len 1 (rs u)) as H1.
  change (blen (ser (pc_out (p_bytes 1) (rs u)))) with (blen (ser (pc_out (p_string 1) u))) in H1.
  unfold small_message in H. change (2 ^ 63) with 9223372036854775808 in H. change two64 with 18446744073709551616.
  cbn [nm_url nm_content] in *. lia.
Qed.

Section Facts.
  Context (compress decompress : bytes -> nres bytes).
  Hypothesis snappy : forall b, exists c, compress b = Ok c /\ decompress c = Ok b.

  Lemma lossless b c : compress b = Ok c -> decompress c = Ok b.
  Proof using snappy. intros H. destruct (snappy b) as (c' & H1 & H2). congruence. Qed.

  Notation send_request := (send_request compress).
  Notation on_message := (on_message compress decompress).
  Notation net_step := (net_step compress decompress).
  Notation net_steps := (net_steps compress decompress).
  Notation wire_ask := (wire_ask compress decompress).
  Notation no_response := (no_response decompress).

  Lemma sync_endpoint url e rid : url = RPC_SYNC_PULL \/ url = RPC_RESP_SYNC_PULL -> parse_endpoint url = Ok e ->
    exists e', extend e (rid_str rid) = Ok e'.
  Proof.
    intros Hu He. apply (C71_extend url e rid He). pose proof (dec_length rid) as Hd. cbn [rid_str rs].
    destruct Hu as [-> | ->].
    - split; [|change (blen (rs RPC_SYNC_PULL)) with 29; lia].
      eexists _, _, _. pose proof (url_components_ex (rs RPC_SYNC_PULL)) as H. vm_compute (comps (rs RPC_SYNC_PULL)) in H. exact H.
    - split; [|change (blen (rs RPC_RESP_SYNC_PULL)) with 29; lia].
      eexists _, _, _. pose proof (url_components_ex (rs RPC_RESP_SYNC_PULL)) as H. vm_compute (comps (rs RPC_RESP_SYNC_PULL)) in H. exact H.
  Qed.

  (** A request is always sent. *)
  Lemma request_sent n sid cno rq :
    exists raw, send_request n sid cno rq =
      (Ok (next_id (nn_rpc n), raw),
       NetNode (RpcMap (wrap64 (next_id (nn_rpc n) + 1)) (<[(sid, u64v (next_id (nn_rpc n))) := Sender TY_ConsRpcResponse cno]> (entries (nn_rpc n))))
               (nn_reactors n)) /\
      rpc_call compress menc (nn_rpc n) cno (Some sid) RPC_SYNC_PULL TY_ConsRpcRequest (VRequest rq) TY_ConsRpcResponse =
        (Ok (next_id (nn_rpc n), sid, raw),
         RpcMap (wrap64 (next_id (nn_rpc n) + 1)) (<[(sid, u64v (next_id (nn_rpc n))) := Sender TY_ConsRpcResponse cno]> (entries (nn_rpc n)))).
  Proof using snappy.
    unfold TwoNodes.send_request, rpc_call.
    destruct (parse_endpoint RPC_SYNC_PULL) as [e|x|] eqn:Ep; [|exfalso; vm_compute in Ep; discriminate Ep..].
    cbn [rm_next rm_insert menc rbind next_id entries].
    change (menc TY_ConsRpcRequest (VRequest rq)) with (Ok (E := net_err) (enc_request rq)). cbn [rbind].
    destruct (sync_endpoint RPC_SYNC_PULL e (next_id (nn_rpc n)) (or_introl eq_refl) Ep) as (e' & ->). cbn [rbind].
    destruct (snappy (nm_encode (NetMsg (full_url e') (enc_request rq)))) as (raw & -> & _). cbn [rbind].
    exists raw. split; reflexivity.
  Qed.

  (** So is an answer. *)
  Lemma answer_sent sid rid a :
    exists raw, rpc_response compress menc (Some sid) (Some rid) RPC_RESP_SYNC_PULL TY_ConsRpcResponse (VResponse a) = Ok (sid, raw).
  Proof using snappy.
    unfold rpc_response.
    destruct (parse_endpoint RPC_RESP_SYNC_PULL) as [e|x|] eqn:Ep; [|exfalso; vm_compute in Ep; discriminate Ep..].
    cbn [rbind ok_or]. change (menc TY_ConsRpcResponse (VResponse a)) with (Ok (E := net_err) (enc_response a)). cbn [rbind].
    destruct (sync_endpoint RPC_RESP_SYNC_PULL e rid (or_intror eq_refl) Ep) as (e' & ->). cbn [rbind].
    destruct (snappy (nm_encode (NetMsg (full_url e') (enc_response a)))) as (raw & -> & _). cbn [rbind]. exists raw. reflexivity.
  Qed.

  (** ** Other traffic leaves a call alone *)
  Lemma receive_entries n sid raw key : (forall rid, responds_to decompress rid raw -> (sid, u64v rid) <> key) ->
    entries (nn_rpc (receive decompress mdec n sid raw).2) !! key = entries (nn_rpc n) !! key.
  Proof using Type.
    intros Hk. unfold receive, route.
    destruct (decompress raw) as [des| |] eqn:E1; cbn [rbind]; [|reflexivity..].
    destruct (nm_decode des) as [msg| |] eqn:E2; cbn [rbind]; [|reflexivity..].
    destruct (parse_endpoint (nm_url msg)) as [e| |] eqn:E3; cbn [rbind]; [|reflexivity..].
    destruct (root e) as [r| |] eqn:E4; cbn [rbind]; [|reflexivity..].
    destruct (nn_reactors n !! r) as [ra|]; cbn [ok_or rbind]; [|reflexivity].
    unfold react. rewrite E3. cbn [rbind].
    destruct (mdec (ra_ty ra) (nm_content msg)) as [v| |] eqn:E7; cbn [rbind]; [|reflexivity..].
    destruct (scheme_of e) as [sch| |] eqn:E5; cbn [rbind]; [|reflexivity..].
    destruct sch; [reflexivity| |].
    - destruct (rpc_id e); reflexivity.
    - destruct (rpc_id e) as [rid| |] eqn:E6; [|reflexivity..].
      assert (Hne : (sid, u64v rid) <> key) by (apply Hk; exists des, msg, e, (ra_ty ra), v; auto 10).
      unfold rm_take, rm_contains, rm_remove.
      destruct (entries (nn_rpc n) !! (sid, u64v rid)) as [s|]; [|reflexivity].
      destruct (Nat.eqb (snd_ty s) (ra_ty ra)); cbn [snd nn_rpc entries]; apply lookup_delete_ne; exact Hne.
  Qed.
  Lemma receive_next n sid raw : next_id (nn_rpc (receive decompress mdec n sid raw).2) = next_id (nn_rpc n) /\
    nn_reactors (receive decompress mdec n sid raw).2 = nn_reactors n.
  Proof using Type.
    unfold receive. destruct (route decompress (nn_reactors n) raw) as [[ra msg]| |]; [|split; reflexivity..].
    unfold react. destruct (let? e := _ in _) as [[[e v] sch]| |]; [|split; reflexivity..].
    destruct sch; [split; reflexivity| |].
    - destruct (rpc_id e); split; reflexivity.
    - destruct (rpc_id e) as [rid| |]; [|split; reflexivity..].
      unfold rm_take, rm_contains, rm_remove.
      destruct (entries (nn_rpc n) !! (sid, u64v rid)) as [s|]; [|split; reflexivity].
      destruct (Nat.eqb (snd_ty s) (ra_ty ra)); split; reflexivity.
  Qed.

  Lemma call_next m cno sid url ty v rty :
    (rpc_call compress menc m cno (Some sid) url ty v rty).2 = m \/
    (rpc_call compress menc m cno (Some sid) url ty v rty).2 =
      RpcMap (wrap64 (next_id m + 1)) (<[(sid, u64v (next_id m)) := Sender rty cno]> (entries m)).
  Proof using Type. unfold rpc_call. destruct (parse_endpoint url); [right; reflexivity|left; reflexivity..]. Qed.

  Lemma steps_keep sid (rid : u64) es : Forall (no_response sid rid) es -> forall n (k : N),
    next_id (nn_rpc n) = wrap64 (rid + k) -> 0 < k -> k + N.of_nat (length es) <= two64 ->
    entries (nn_rpc (net_steps n es)) !! (sid, u64v rid) = entries (nn_rpc n) !! (sid, u64v rid) /\
    nn_reactors (net_steps n es) = nn_reactors n.
  Proof using snappy.
    induction 1 as [|e es He Hes IH]; intros n k Hn Hk Hlen; [split; reflexivity|].
    cbn [length] in Hlen. unfold TwoNodes.net_steps. cbn [fold_left]. fold (net_steps (net_step n e) es).
    destruct e as [cno s url ty v rty|s raw]; cbn [TwoNodes.net_step].
    - destruct (call_next (nn_rpc n) cno s url ty v rty) as [E|E]; rewrite E.
      + replace (NetNode (nn_rpc n) (nn_reactors n)) with n by (destruct n; reflexivity). apply (IH n k Hn Hk). lia.
      + edestruct (IH (NetNode (RpcMap (wrap64 (next_id (nn_rpc n) + 1)) (<[(s, u64v (next_id (nn_rpc n))) := Sender rty cno]> (entries (nn_rpc n))))
                                (nn_reactors n)) (k + 1)) as [I1 I2].
        * cbn [nn_rpc next_id]. rewrite Hn. apply u64_eq. unfold wrap64. cbn [u64v].
          rewrite N.add_mod_idemp_l by discriminate. f_equal. lia.
        * lia.
        * lia.
        * rewrite I1, I2. cbn [nn_rpc entries nn_reactors]. split; [|reflexivity]. apply lookup_insert_ne.
          intros X. injection X as -> X. rewrite Hn in X. unfold wrap64 in X. cbn [u64v] in X.
          pose proof (proj1 (N.ltb_lt _ _) (u64_ok rid)) as Hr.
          assert (k < two64) as Hk2 by lia.
          destruct (N.lt_ge_cases (rid + k) two64) as [Hl|Hg].
          -- rewrite N.mod_small in X by exact Hl. lia.
          -- replace (rid + k) with ((rid + k - two64) + 1 * two64) in X by lia. rewrite N.mod_add in X by discriminate.
             rewrite N.mod_small in X by lia. lia.
    - destruct (receive_next n s raw) as [R1 R2]. edestruct (IH (receive decompress mdec n s raw).2 k) as [I1 I2].
      + rewrite R1. exact Hn.
      + exact Hk.
      + lia.
      + rewrite I1, I2, R2. split; [|reflexivity]. apply receive_entries.
        intros rid' Hr X. injection X as -> X. apply u64_eq in X as ->. exact (He eq_refl Hr).
  Qed.

  (** ** The request and the answer *)
  Lemma wire_ask_answered d nB sidB nA sid cno rq a es :
    register_all ∅ main_registrations = Ok (nn_reactors nA) -> register_all ∅ main_registrations = Ok (nn_reactors nB) ->
    rpc_serve d rq = Ok a -> dec_request (enc_request rq) = Ok rq -> dec_response (enc_response a) = Ok a ->
    small_message (enc_request rq) -> small_message (enc_response a) ->
    Forall (no_response sid (next_id (nn_rpc nA))) es -> N.of_nat (length es) < two64 ->
    exists nA', wire_ask d nB sidB nA sid cno rq es = (Some a, nA') /\ nn_reactors nA' = nn_reactors nA.
  Proof using snappy.
    intros HA HB Hs Hrq Ha Frq Fa Hes Hlen. unfold TwoNodes.wire_ask.
    destruct (request_sent nA sid cno rq) as (raw & -> & Hcall).
    set (m1 := RpcMap _ _) in *. set (rid := next_id (nn_rpc nA)) in *.
    destruct (C82_sync_request_answered compress decompress mdec menc lossless nA nB cno sid sidB RPC_SYNC_PULL RPC_RESP_SYNC_PULL
      (VRequest rq) (VResponse a) (enc_request rq) (enc_response a) rid raw m1 eq_refl eq_refl eq_refl) as (Hget & Hback).
    { change (mdec TY_ConsRpcRequest (enc_request rq)) with (read VRequest (dec_request (enc_request rq))). rewrite Hrq. reflexivity. }
    { apply small_envelope, Frq. }
    { reflexivity. }
    { change (mdec TY_ConsRpcResponse (enc_response a)) with (read VResponse (dec_response (enc_response a))). rewrite Ha. reflexivity. }
    { apply small_envelope, Fa. }
    { exact HA. }
    { exact HB. }
    { exact Hcall. }
    unfold TwoNodes.on_message at 1. rewrite Hget. rewrite Hs.
    destruct (answer_sent sidB rid a) as (rawB & Eb). rewrite Eb. cbn [fst].
    destruct (steps_keep sid rid es Hes (NetNode m1 (nn_reactors nA)) 1) as (K1 & K2); [reflexivity|lia|unfold two64 in *; lia|].
    cbn [nn_rpc nn_reactors] in K1, K2.
    assert (nn_reactors (net_steps (NetNode m1 (nn_reactors nA)) es) = nn_reactors nA) as K2' by exact K2.
    pose proof (Hback rawB Eb (net_steps (NetNode m1 (nn_reactors nA)) es) K2' K1) as Hans.
    unfold TwoNodes.on_message. destruct (receive_next (net_steps (NetNode m1 (nn_reactors nA)) es) sid rawB) as [_ R].
    destruct (receive decompress mdec (net_steps (NetNode m1 (nn_reactors nA)) es) sid rawB) as [x nA2] eqn:Ex. cbn [fst] in Hans. subst x.
    cbn [snd_call]. rewrite Nat.eqb_refl. exists nA2. split; [reflexivity|]. cbn [snd] in R. rewrite R. exact K2.
  Qed.

  (** ** A message's effect on the network part *)
  Lemma on_message_net d n sid raw : (on_message d n sid raw).2 = (receive decompress mdec n sid raw).2.
  Proof using Type.
    unfold TwoNodes.on_message. destruct (receive decompress mdec n sid raw) as [[[h s rid v|to v]| |] n']; [|reflexivity..].
    destruct h; reflexivity.
  Qed.
End Facts.
