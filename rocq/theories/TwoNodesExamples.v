(** * The node and the peer of SyncExamples over the wire (digest [mixd], no
    compression): the hypotheses of C110 and C111, and what happens. *)
From Verif Require Import Base BaseFacts Hex Types Rlp RlpFacts FixedCodec StateAdapter Executor ExecSpec Mempool Merkle Bincode ConsMsg PropConsMsg
  Proto Wire WireFacts Storage StorageSpec StorageFacts StorageExamples Consensus ConsSpec ConsFacts ConsInv ConsChain SyncSpec SyncFacts PropSync Keccak
  MixSetup ConsExamples SyncExamples Endpoint NetSpec RpcMap NetMsg NetFacts PropNet PropWiring TwoNodes TwoNodesFacts PropTwoNodes PropWireGossip PropSilentPeer.
From Coq Require Strings.String.
Import String.StringSyntax.
Delimit Scope string_scope with string.
Local Open Scope N_scope.

Definition plain (b : bytes) : nres bytes := Ok b.
Lemma plain_ok : compression_ok plain plain.
Proof. intros b. exists b. split; reflexivity. Qed.

Definition netA : net_node := main_node.
Lemma main_started : started main_node.
Proof.
  destruct main_registers as [m E]. unfold started, main_node. cbn [nn_reactors]. rewrite E. reflexivity.
Qed.

Definition small_b (b : bytes) : bool := blen b <? 9223372036854775808.
Lemma two63 : 2 ^ 63 = 9223372036854775808.
Proof. vm_compute. reflexivity. Qed.
Lemma small_b_ok (b : bytes) : small_b b = true -> small_message b.
Proof. unfold small_b, small_message. intros H. apply N.ltb_lt in H. rewrite two63. exact H. Qed.
Notation answers_small_b d := (fun e : epoch =>
  (blen (wenc_epoch e) <? two64) && (small_b (enc_response (RpEpoch e)) && (small_b (enc_request (RqTxs (ep_ordered_tx_hashes e))) &&
  match map_res (get_transaction_by_hash rocks_col d) (ep_ordered_tx_hashes e) with Ok l => small_b (enc_response (RpTxs l)) | _ => true end))).
Lemma and4 (a b c d : bool) : a && (b && (c && d)) = true -> a = true /\ b = true /\ c = true /\ d = true.
Proof. destruct a, b, c, d; cbn; intros H; try discriminate H; repeat split. Qed.
Lemma answers_small_b_ok (d : durable) (c : list epoch) : forallb (answers_small_b d.1) c = true -> answers_small d c.
Proof.
  intros H e He. rewrite forallb_forall in H. specialize (H e (proj1 (elem_of_list_In _ _) He)).
  cbv beta in H. apply and4 in H as (A & B & C & D).
  split; [apply N.ltb_lt; exact A|]. split; [apply small_b_ok; exact B|]. split; [apply small_b_ok; exact C|].
  intros l Hl. rewrite Hl in D. apply small_b_ok. exact D.
Qed.
Lemma answers_small_true : forallb (answers_small_b peerx.1) cx = true.
Proof. vm_compute. reflexivity. Qed.
Example two_nodes_small : answers_small peerx cx.
Proof. exact (answers_small_b_ok peerx cx answers_small_true). Qed.

Definition raw_of (r : nres bytes) : bytes := match r with Ok b => b | _ => [] end.
(** The peer, whose latest epoch is the 3rd, announces it (it goes on with the 4th). *)
Definition ann3 : bytes := Eval vm_compute in
  raw_of (package_message plain menc END_GOSSIP_RICH_EPOCH_ID TY_RichEpochID (VBlob (enc_fixed_epoch_id (wrap64 4)))).
Lemma ann3_ok : announcement plain 3 ann3.
Proof. vm_compute. reflexivity. Qed.
(** On another session, the same announcement and a stray answer come in meanwhile, and the node asks that peer too. *)
Definition stray : bytes := Eval vm_compute in
  raw_of (match rpc_response plain menc (Some 5) (Some (wrap64 0)) RPC_RESP_SYNC_PULL TY_ConsRpcResponse (VResponse (RpTxs [])) with Ok x => Ok x.2 | Err e => Err e | Panic => Panic end).
Definition noise : list traffic :=
  [TIn 5 stray; TIn 5 ann3; TCall 77 5 RPC_SYNC_PULL TY_ConsRpcRequest (VRequest (RqEpoch (wrap64 9))) TY_ConsRpcResponse].
Lemma noise_quiet : quiet plain 8 noise.
Proof.
  split; [|reflexivity]. intros rid. unfold noise. apply Forall_cons; split; [intros X; discriminate X|].
  apply Forall_cons; split; [intros X; discriminate X|]. apply Forall_cons; split; [exact I|]. apply Forall_nil. exact I.
Qed.

Definition w0 : wired := Wired main_node nodex 3.
Notation wann := (wire_announced plain plain mixd rootx showx verifyx comb_shapes cfx).
Notation wpulls := (wire_pulls plain plain mixd rootx showx verifyx comb_shapes cfx).
Definition w1 : wired := (wann peerx main_node 2 w0 8 ann3 noise).1.
Definition rounds : list ((nat -> iter_order) * list traffic * list traffic) := [(canons, noise, noise); (canons, [], noise); (canons, noise, [])].
Lemma rounds_quiet : quiet_rounds plain 8 rounds.
Proof.
  assert (quiet plain 8 []) as H0 by (split; [intros; constructor|reflexivity]). pose proof noise_quiet as H1.
  unfold rounds. apply Forall_cons; split; [split; assumption|]. apply Forall_cons; split; [split; assumption|].
  apply Forall_cons; split; [split; assumption|]. apply Forall_nil. exact I.
Qed.
(** The result is that of C89's example. *)
Example two_nodes_run :
  view (w_node w1) = [2; 990; 13; 3; 102; 1; 1] /\
  view (w_node (wpulls peerx main_node 2 8 w1 rounds)) = [4; 990; 13; 4; 0; 3; 2].
Proof. vm_compute. repeat split; reflexivity. Qed.
(** The announcement's hypotheses, and those of C111: the node waits, and
    nothing of [noise] is the answer it waits for. *)
Example two_nodes_announcement : announcement plain 3 ann3 /\ announces plain (wrap64 4) ann3.
Proof. split; vm_compute; reflexivity. Qed.
Notation begins := (wire_begins plain plain mixd rootx showx verifyx comb_shapes cfx).
Definition begun : option (u64 * list N) :=
  match begins w0 8 ann3 with Some (rid, w) => Some (rid, view (w_node w)) | None => None end.
(** Other messages, an announcement by another peer, a commit, a status asked for. *)
Definition idle_time : list meantime :=
  [MMessage 5 stray; MMessage 8 ann3; MCall (CallSync (enc_fixed_epoch_id (wrap64 9)) (Err (CNetwork 1)));
   MCall (CallCommit (wrap64 3) (commit_of 3 p1)); MRequest 77 5 RPC_SYNC_PULL TY_ConsRpcRequest (VRequest (RqEpoch (wrap64 9))) TY_ConsRpcResponse].
Definition not_response_b (raw : bytes) : bool :=
  match nm_decode raw with
  | Ok m => match parse_endpoint (nm_url m) with Ok e => match scheme_of e with Ok RpcResponse => false | _ => true end | _ => true end
  | _ => true
  end.
Lemma not_response_b_ok rid raw : not_response_b raw = true -> ~ responds_to plain rid raw.
Proof.
  unfold not_response_b, responds_to, plain. intros H (des & m & e & ty & v & [= <-] & H2 & H3 & H4 & _ & _).
  rewrite H2, H3, H4 in H. discriminate H.
Qed.
Lemma ann3_not_response : not_response_b ann3 = true.
Proof. vm_compute. reflexivity. Qed.
Example silent_peer_begins : exists rid w, begins w0 8 ann3 = Some (rid, w) /\ Forall (without_answer plain 8 rid) idle_time.
Proof.
  destruct (begins w0 8 ann3) as [[rid w]|] eqn:E.
  - exists rid, w. split; [reflexivity|]. unfold idle_time.
    apply Forall_cons; split; [intros X; discriminate X|].
    apply Forall_cons; split; [intros _; exact (not_response_b_ok rid ann3 ann3_not_response)|].
    apply Forall_cons; split; [exact I|]. apply Forall_cons; split; [exact I|]. apply Forall_cons; split; [exact I|]. apply Forall_nil. exact I.
  - exfalso. assert (begun <> None) as H by (vm_compute; discriminate). apply H. unfold begun. rewrite E. reflexivity.
Qed.
