(** * C111: a node that waits for a peer's answer. *)
From Verif Require Import Base BaseFacts Types FixedCodec FixedCodecFacts StateAdapter Executor Mempool MempoolSpec MempoolMore
  Merkle Bincode ConsMsg PropConsMsg Proto ProtoFacts Wire WireFacts Storage StorageSpec Consensus ConsSpec ConsFacts ConsInv SyncSpec
  Endpoint NetSpec EndpointFacts RpcMap RpcMapFacts NetMsg NetFacts PropNet PropWiring TwoNodes TwoNodesFacts PropTwoNodes PropWireGossip.
From Coq Require Import Permutation.
From stdpp Require Import gmap.
Local Open Scope N_scope.

Section Props.
  Context (compress decompress : bytes -> nres bytes).
  Context (digest : bytes -> hash) (root_of : gmap bytes bytes -> hash) (show : exec_err -> rstring)
          (verify : bytes -> bytes -> bytes -> bool) (shapes : nat -> shape) (cf : config).
  Notation run_call := (run_call digest root_of show verify shapes cf).
  Notation does := (does digest root_of show verify shapes cf).
  Notation arrives := (arrives compress decompress digest root_of show verify shapes cf).
  Notation meanwhile := (meanwhile compress decompress digest root_of show verify shapes cf).
  Notation wire_begins := (wire_begins compress decompress digest root_of show verify shapes cf).
  Notation without_answer := (without_answer decompress).
  Notation latest d := (get_latest_epoch rocks_col digest (fst d)).
  Notation at_id d i := (get_epoch_by_epoch_id rocks_col (fst d) i).

  Definition syncing (n : node) : Prop := exists id rich ch sr, nd_busy n = Syncing id rich ch sr.

  (** ** One call *)
  Lemma call_waiting c (n : node) r n' t : syncing n -> run_call c n = (r, n', t) -> (forall os a b, c <> CallSyncEpoch os a b) ->
    t = [] /\ nd_disk n' = nd_disk n /\ nd_status n' = nd_status n /\ nd_busy n' = nd_busy n /\ nd_out n' = nd_out n /\
    match c with CallCommit _ _ => r = Err CLockInSync | CallSync _ _ => r = Ok RepUnit /\ n' = n | _ => True end.
  Proof.
    intros (id & rich & ch & sr & Hb) E Hc.
    destruct (light_call c) eqn:El.
    { apply (light_call_out digest root_of show verify shapes cf _ _ _ _ _ El) in E as [(p & x & -> & _) ->].
      cbn [nd_disk nd_status nd_busy nd_out]. split_and!; auto. destruct c; try discriminate El; exact I. }
    destruct c as [net tx sent|i now|h p pl1 pl2|i c|os sent|msg first|os re rt]; try discriminate El.
    - cbn [Consensus.run_call] in E. unfold commit_start, abind, aget, alift in E. rewrite Hb in E. injection E as <- <- <-. split_and!; auto.
    - cbn [Consensus.run_call] in E. unfold commit_finish, abind, aget, alift in E. rewrite Hb in E. injection E as <- <- <-. split_and!; auto.
    - cbn [Consensus.run_call] in E. unfold sync_start, abind, aget, alift, aret in E. rewrite Hb in E. injection E as <- <- <-. split_and!; auto.
    - exfalso. exact (Hc _ _ _ eq_refl).
  Qed.
  Lemma calls_waiting cs : forall n, syncing n -> Forall (fun c => forall os a b, c <> CallSyncEpoch os a b) cs ->
    (does n cs).2 = [] /\ nd_disk (does n cs).1 = nd_disk n /\ nd_status (does n cs).1 = nd_status n /\
    nd_busy (does n cs).1 = nd_busy n /\ nd_out (does n cs).1 = nd_out n.
  Proof.
    induction cs as [|c cs IH]; intros n Hn Hcs; cbn [TwoNodes.does]; [split_and!; auto|]. apply Forall_cons in Hcs as [Hc Hcs].
    destruct (run_call c n) as [[r n1] t1] eqn:E. destruct (call_waiting c n r n1 t1 Hn E Hc) as (-> & A & B & C & D & _).
    assert (syncing n1) as Hn1 by (destruct Hn as (a & b & d & e & H); exists a, b, d, e; congruence).
    destruct (IH n1 Hn1 Hcs) as (I1 & I2 & I3 & I4 & I5). destruct (does n1 cs) as [n2 t2]. cbn [fst snd app] in *. subst t2.
    split_and!; congruence.
  Qed.
  Lemma takes_calls r cs : takes r cs -> Forall (fun c => forall os a b, c <> CallSyncEpoch os a b) cs.
  Proof.
    destruct r; cbn [takes]; try (intros ->; constructor).
    - intros (l' & _ & ->). apply Forall_forall. intros c H. apply elem_of_list_fmap in H as (x & -> & _). intros; discriminate.
    - intros (f & ->). constructor; [intros; discriminate|constructor].
  Qed.

  (** ** The network part *)
  Lemma meanwhile_net w l w' rs t : meanwhile w l w' rs t -> forall sid rid (k : N),
    Forall (without_answer sid rid) l -> next_id (nn_rpc (w_net w)) = wrap64 (u64v rid + k) -> 0 < k -> k + N.of_nat (length l) <= two64 ->
    entries (nn_rpc (w_net w')) !! (sid, u64v rid) = entries (nn_rpc (w_net w)) !! (sid, u64v rid).
  Proof.
    induction 1 as [w|nn n j s raw nn' n' t1 l w' rs t (cs & _ & -> & _) Hm IH|nn n j c r n' t1 l w' rs t E Hm IH
      |nn n j cno s end_ ty v rty l w' rs t Hm IH]; intros sid rid k Hl Hn Hk Hlen; [reflexivity|..];
      apply Forall_cons in Hl as [Hx Hl]; cbn [length w_net] in *.
    - pose proof (on_message_net compress decompress (nd_disk n) nn s raw) as En. rewrite En in IH.
      destruct (receive_next decompress nn s raw) as [R1 R2].
      rewrite (IH sid rid k Hl); [|rewrite R1; exact Hn|exact Hk|lia].
      apply receive_entries. intros rid' Hr X. injection X as -> X. apply u64_eq in X as ->. exact (Hx eq_refl Hr).
    - apply (IH sid rid k Hl Hn Hk). lia.
    - cbn [TwoNodes.net_step] in IH. destruct (call_next compress (nn_rpc nn) cno s end_ ty v rty) as [E|E]; rewrite E in IH.
      + replace (NetNode (nn_rpc nn) (nn_reactors nn)) with nn in IH by (destruct nn; reflexivity). apply (IH sid rid k Hl Hn Hk). lia.
      + rewrite (IH sid rid (k + 1) Hl); [|cbn [nn_rpc next_id]|lia|lia].
        * cbn [nn_rpc entries]. apply lookup_insert_ne. intros X. injection X as -> X. rewrite Hn in X. unfold wrap64 in X. cbn [u64v] in X.
          pose proof (proj1 (N.ltb_lt _ _) (u64_ok rid)) as Hr.
          destruct (N.lt_ge_cases (rid + k) two64) as [Hlt|Hg].
          -- rewrite N.mod_small in X by exact Hlt. lia.
          -- replace (rid + k) with ((rid + k - two64) + 1 * two64) in X by lia. rewrite N.mod_add in X by discriminate.
             rewrite N.mod_small in X by lia. lia.
        * rewrite Hn. apply u64_eq. unfold wrap64. cbn [u64v]. rewrite N.add_mod_idemp_l by discriminate. f_equal. lia.
  Qed.

  (** ** The node that waits *)
  Lemma begins_out w sid raw rid w1 : wire_begins w sid raw = Some (rid, w1) ->
    exists s b, on_message compress decompress (nd_disk (w_node w)) (w_net w) sid raw = (RAnnounced s b, (on_message compress decompress (nd_disk (w_node w)) (w_net w) sid raw).2) /\
    nd_busy (w_node w) = Idle /\ syncing (w_node w1) /\ nd_disk (w_node w1) = nd_disk (w_node w) /\ nd_status (w_node w1) = nd_status (w_node w) /\
    nd_out (w_node w1) = nd_out (w_node w) /\ s = sid /\
    next_id (nn_rpc (w_net w1)) = wrap64 (u64v rid + 1) /\
    entries (nn_rpc (w_net w1)) !! (sid, u64v rid) = Some (Sender TY_ConsRpcResponse (w_calls w)).
  Proof.
    unfold TwoNodes.wire_begins.
    assert (forall r nA, on_message compress decompress (nd_disk (w_node w)) (w_net w) sid raw = (r, nA) ->
      forall s b, r = RAnnounced s b -> s = sid) as Hsid.
    { unfold on_message. intros r nA E s b ->. destruct (receive decompress mdec (w_net w) sid raw) as [x nA'] eqn:Er.
      assert (forall h s' rd v, x = Ok (Process h s' rd v) -> s' = sid) as Hs.
      { intros h s' rd v ->. revert Er. unfold receive. destruct (route decompress _ raw) as [[ra msg]| |]; [|discriminate..].
        unfold react. destruct (let? e := _ in _) as [[[e v'] sch]| |]; [|discriminate..].
        destruct sch; [intros [= <- <- <- <- <-]; reflexivity| |].
        - destruct (rpc_id e); [intros [= <- <- <- <- <-]; reflexivity|discriminate..].
        - destruct (rpc_id e) as [rd'| |]; [|discriminate..]. destruct (rm_take _ _ _ _) as [[y| |] m']; discriminate. }
      destruct x as [[h s' rd v|to v]| |]; [|discriminate E..].
      destruct h as [h|]; [|discriminate E]. specialize (Hs _ _ _ _ eq_refl). subst s'.
      destruct v as [l|l|b0|rq|rs]; try discriminate E.
      - destruct (Nat.eqb h _); [injection E; congruence|discriminate E].
      - destruct (rpc_serve _ rq); try discriminate E. destruct (rpc_response _ _ _ _ _ _ _) as [[? ?]| |]; discriminate E. }
    destruct (on_message compress decompress (nd_disk (w_node w)) (w_net w) sid raw) as [r nA] eqn:Em.
    destruct r as [l|h b|s b|s r0|cno v|]; try discriminate. pose proof (Hsid _ _ eq_refl s b eq_refl) as ->.
    assert (forall id n', match send_request compress nA sid (w_calls w) (RqEpoch id) with
                        | (Ok (rid, _), nA') => Some (rid, Wired nA' n' (S (w_calls w)))
                        | _ => None
                        end = Some (rid, w1) ->
      w_node w1 = n' /\ next_id (nn_rpc (w_net w1)) = wrap64 (u64v rid + 1) /\
      entries (nn_rpc (w_net w1)) !! (sid, u64v rid) = Some (Sender TY_ConsRpcResponse (w_calls w))) as Hw.
    { intros id n'. unfold send_request, rpc_call.
      destruct (parse_endpoint RPC_SYNC_PULL) as [e| |]; cbn [rbind]; [|discriminate..].
      cbn [rm_next rm_insert next_id entries]. destruct (let? data := _ in _) as [[rid' raw']|xe|] eqn:Ed; cbn [rbind]; [|discriminate..].
      intros [= <- <-]. cbn [w_node w_net nn_rpc next_id entries fst snd]. split; [reflexivity|].
      assert (rid' = next_id (nn_rpc nA)) as ->.
      { revert Ed. cbn [menc rbind]. destruct (menc _ _); cbn [rbind]; [|discriminate..]. destruct (extend _ _); cbn [rbind]; [|discriminate..].
        destruct (compress _); cbn [rbind]; [|discriminate..]. intros X. cbn [fst snd] in X. injection X as <- _. reflexivity. }
      split; [reflexivity|]. apply lookup_insert. }
    cbn zeta. destruct (first_pull digest (w_node w) b) as [id|] eqn:Ef; intros H.
    - apply Hw in H as (Hn & H1 & H2). exists sid, b. rewrite Hn. cbn [set_busy nd_disk nd_status nd_out snd].
      split; [reflexivity|]. split; [|split; [eexists _, _, _, _; reflexivity|split_and!; auto]].
      revert Ef. unfold first_pull. destruct (nd_busy (w_node w)); [reflexivity|discriminate..].
    - destruct (nd_busy (w_node w)) eqn:Eb; try discriminate H.
      destruct (run_call (CallSync b (Err (CNetwork 1))) (w_node w)) as [[r n1] t1] eqn:E. cbn [fst snd] in H.
      apply call_sync in E as (r1 & Hs & ->).
      destruct (nd_busy n1) as [| |id rich ch sr] eqn:Eb1; try discriminate H. destruct (id <=? rich); [|discriminate H].
      apply Hw in H as (Hn & H1 & H2). exists sid, b. rewrite Hn.
      split; [reflexivity|]. split; [reflexivity|]. split; [exists id, rich, ch, sr; exact Eb1|].
      inversion Hs; subst; cbn [set_busy nd_disk nd_status nd_out snd]; split_and!; auto.
  Qed.

  (** ** C111: until the answer comes, the node commits nothing *)
  (** However long it is: the disk and the status stay as they are, the engine
      is told nothing, every commit fails, every announcement (by anyone) is
      ignored, and the call is still waiting. *)
  Theorem C111_waits_for_ever : forall w sid raw rid w1 l w2 rs t,
    wire_begins w sid raw = Some (rid, w1) -> meanwhile w1 l w2 rs t ->
    Forall (without_answer sid rid) l -> N.of_nat (length l) < two64 ->
    t = [] /\ nd_disk (w_node w2) = nd_disk (w_node w) /\ nd_status (w_node w2) = nd_status (w_node w) /\ nd_out (w_node w2) = nd_out (w_node w) /\
    (forall id c r, (CallCommit id c, r) ∈ rs -> r = Err CLockInSync) /\
    (forall msg first r, (CallSync msg first, r) ∈ rs -> r = Ok RepUnit) /\
    nd_busy (w_node w2) = nd_busy (w_node w1) /\ syncing (w_node w2) /\
    entries (nn_rpc (w_net w2)) !! (sid, u64v rid) = Some (Sender TY_ConsRpcResponse (w_calls w)).
  Proof.
    intros w sid raw rid w1 l w2 rs t Hb Hm Hl Hlen.
    destruct (begins_out w sid raw rid w1 Hb) as (s & b & _ & _ & Hsy & Hd & Hs & Ho & _ & Hnx & Hent).
    pose proof (meanwhile_net w1 l w2 rs t Hm sid rid 1 Hl Hnx ltac:(lia) ltac:(lia)) as Hent2. rewrite Hent in Hent2.
    assert (t = [] /\ nd_disk (w_node w2) = nd_disk (w_node w1) /\ nd_status (w_node w2) = nd_status (w_node w1) /\ nd_out (w_node w2) = nd_out (w_node w1) /\
      (forall id c r, (CallCommit id c, r) ∈ rs -> r = Err CLockInSync) /\
      (forall msg first r, (CallSync msg first, r) ∈ rs -> r = Ok RepUnit) /\
      nd_busy (w_node w2) = nd_busy (w_node w1)) as (A & B & C & D & E & F & G).
    { clear Hent Hent2 Hnx Hd Hs Ho Hb Hlen b s.
      induction Hm as [w1|nn n j s0 raw0 nn' n' t1 l w' rs t (cs & Hcs & -> & Hds) Hm IH|nn n j c r n' t1 l w' rs t Ec Hm IH
        |nn n j cno s0 end_ ty v rty l w' rs t Hm IH]; cbn [w_node] in *.
      - split_and!; try reflexivity; intros; (exfalso; match goal with H : _ ∈ [] |- _ => apply elem_of_nil in H as [] end).
      - apply Forall_cons in Hl as [_ Hl]. destruct (calls_waiting cs n Hsy (takes_calls _ _ Hcs)) as (C1 & C2 & C3 & C4 & C5).
        rewrite Hds in *. cbn [fst snd] in *. subst t1.
        destruct IH as (I1 & I2 & I3 & I4 & I5 & I6 & I7); [exact Hl|destruct Hsy as (a & b & d & e & H); exists a, b, d, e; congruence|].
        cbn [app]. split; [exact I1|]. split; [congruence|]. split; [congruence|]. split; [congruence|]. split; [exact I5|]. split; [exact I6|congruence].
      - apply Forall_cons in Hl as [Hx Hl]. destruct (call_waiting c n r n' t1 Hsy Ec) as (-> & C2 & C3 & C4 & C5 & C6).
        { intros os a b ->. exact Hx. }
        destruct IH as (I1 & I2 & I3 & I4 & I5 & I6 & I7); [exact Hl|destruct Hsy as (a & b & d & e & H); exists a, b, d, e; congruence|].
        cbn [app]. split; [exact I1|]. split; [congruence|]. split; [congruence|]. split; [congruence|]. split; [|split; [|congruence]].
        + intros i cm r' H. apply elem_of_cons in H as [H|H]; [injection H as <- <-; exact C6|exact (I5 _ _ _ H)].
        + intros msg first r' H. apply elem_of_cons in H as [H|H]; [injection H as <- <-; apply C6|exact (I6 _ _ _ H)].
      - apply Forall_cons in Hl as [_ Hl]. apply IH; assumption. }
    split; [exact A|]. split; [congruence|]. split; [congruence|]. split; [congruence|]. split; [exact E|]. split; [exact F|].
    split; [exact G|]. split; [destruct Hsy as (x1 & x2 & x3 & x4 & H); exists x1, x2, x3, x4; congruence|exact Hent2].
  Qed.

  (** ** What makes it wait *)
  (** A gossip message announcing the epoch number [inner] (consensus.rs:66-108 reads it). *)
  Definition announces (inner : u64) (raw : bytes) : Prop :=
    package_message compress menc END_GOSSIP_RICH_EPOCH_ID TY_RichEpochID (VBlob (enc_fixed_epoch_id inner)) = Ok raw.

  Hypothesis snappy : compression_ok compress decompress.

  Lemma announces_on_message inner raw d n sid : announces inner raw -> started n ->
    on_message compress decompress d n sid raw = (RAnnounced sid (enc_fixed_epoch_id inner), n).
  Proof.
    intros Ha Hn. set (m := enc_fixed_epoch_id inner) in *.
    assert (fits m) as Hf by (unfold m, fits, enc_fixed_epoch_id, benc_u64, blen; rewrite le_length; reflexivity).
    assert (blen (enc_blob m) = 16) as Hlen.
    { unfold m, enc_fixed_epoch_id, enc_blob, benc_bytes, benc_u64. rewrite blen_app. unfold blen. rewrite !le_length. reflexivity. }
    unfold on_message.
    rewrite (C82_gossip_reaches_its_handler compress decompress mdec menc (lossless compress decompress snappy) END_GOSSIP_RICH_EPOCH_ID TY_RichEpochID
      H_RichEpochID (VBlob m) (enc_blob m) raw n sid).
    - reflexivity.
    - vm_compute. do 4 right. left.
    - exact Ha.
    - reflexivity.
    - change (mdec TY_RichEpochID (enc_blob m)) with (read VBlob (dec_blob (enc_blob m))).
      pose proof (C66_roundtrip_blob m [] Hf) as X. rewrite app_nil_r in X. rewrite X. reflexivity.
    - apply small_envelope. unfold small_message. rewrite Hlen. reflexivity.
    - exact Hn.
  Qed.

  (** One message is enough, from anyone: an epoch number more than two above
      that of the latest epoch, or 0, or (unless the latest epoch is the 0th) 1. *)
  Theorem C111_one_message_stops_a_node : forall w sid raw e (inner : u64),
    started (w_net w) -> nd_busy (w_node w) = Idle ->
    latest (nd_disk (w_node w)) = Ok e -> at_id (nd_disk (w_node w)) (eh_epoch_id (ep_header e)) = Ok e ->
    eh_epoch_id (ep_header e) + 3 < two64 ->
    (eh_epoch_id (ep_header e) + 2 < inner \/ inner = wrap64 0 \/ inner = wrap64 1 /\ eh_epoch_id (ep_header e) <> wrap64 0) ->
    announces inner raw ->
    exists rid w1, wire_begins w sid raw = Some (rid, w1).
  Proof.
    intros w sid raw e inner Hn Hb Hl Ha Hsm Hin Hann. unfold TwoNodes.wire_begins.
    rewrite (announces_on_message inner raw _ _ sid Hann Hn). cbn zeta.
    assert (forall id n', exists rid w1, match send_request compress (w_net w) sid (w_calls w) (RqEpoch id) with
                        | (Ok (rid, _), nA') => Some (rid, Wired nA' n' (S (w_calls w)))
                        | _ => None
                        end = Some (rid, w1)) as Hw.
    { intros id n'. destruct (request_sent compress decompress snappy (w_net w) sid (w_calls w) (RqEpoch id)) as (raw' & -> & _). eauto. }
    set (k := eh_epoch_id (ep_header e)) in *.
    assert (dec_fixed_epoch_id (enc_fixed_epoch_id inner) = Ok inner) as Hd.
    { pose proof (C66_roundtrip_epoch_id inner []) as X. rewrite app_nil_r in X. exact X. }
    set (rich := wrap64 (inner + two64 - 1)) in *.
    assert (u64v inner < two64) as Hil by apply u64_lt.
    assert (k < wrap64 (rich + two64 - 1)) as Hgap.
    { destruct Hin as [Hin|[->|[-> Hk]]].
      - assert (u64v rich = inner - 1) as Er.
        { unfold rich, wrap64. cbn [u64v]. replace (inner + two64 - 1) with (inner - 1 + 1 * two64) by lia.
          rewrite N.mod_add by discriminate. apply N.mod_small. lia. }
        unfold wrap64. cbn [u64v]. rewrite Er. replace (inner - 1 + two64 - 1) with (inner - 2 + 1 * two64) by lia.
        rewrite N.mod_add by discriminate. rewrite N.mod_small by lia. lia.
      - change (u64v (wrap64 (rich + two64 - 1))) with (two64 - 2). lia.
      - change (u64v (wrap64 (rich + two64 - 1))) with (two64 - 1). lia. }
    assert (first_pull digest (w_node w) (enc_fixed_epoch_id inner) = if decide (k = wrap64 0) then None else Some (wrap64 (k + 1))) as Ef.
    { unfold first_pull. rewrite Hb, Hd. cbn zeta. rewrite Hl. fold k rich.
      destruct (N.leb_spec (u64v (wrap64 (rich + two64 - 1))) (u64v k)); [lia|]. rewrite Ha. reflexivity. }
    rewrite Ef. destruct (decide (k = wrap64 0)) as [E0|E0]; [|apply Hw].
    assert (run_call (CallSync (enc_fixed_epoch_id inner) (Err (CNetwork 1))) (w_node w) =
      (Ok RepUnit, set_busy (w_node w) (Syncing (wrap64 (k + 1)) rich (hash_from_empty digest) (hash_from_empty digest)), [])) as ->.
    { cbn [Consensus.run_call]. unfold abind at 1. unfold sync_start. unfold abind at 1, aget at 1. rewrite Hb.
      unfold abind at 1, alift at 1. rewrite Hd. cbn [map_err]. cbn zeta. rewrite Hl. fold k rich.
      destruct (N.leb_spec (u64v (wrap64 (rich + two64 - 1))) (u64v k)); [lia|]. rewrite decide_True by exact E0. reflexivity. }
    rewrite Hb. cbn [fst snd set_busy nd_busy]. rewrite E0. change (u64v (wrap64 (u64v (wrap64 0) + 1))) with 1.
    assert (1 <=? u64v rich = true) as ->; [|apply Hw].
    apply N.leb_le. destruct Hin as [Hin|[->|[_ Hk]]].
    - unfold rich, wrap64. cbn [u64v]. replace (inner + two64 - 1) with (inner - 1 + 1 * two64) by lia.
      rewrite N.mod_add by discriminate. rewrite N.mod_small by lia. lia.
    - change (u64v rich) with (two64 - 1). unfold two64. lia.
    - contradiction.
  Qed.

  (** Any other message leaves a node as able to commit as it was: if the
      handler sends no request, the node is not kept busy (or, if the loop is
      empty, until the end of the handler, which asks nobody). *)
  Theorem C111_other_messages_do_not : forall w sid raw nn' n' t,
    wire_begins w sid raw = None -> arrives (w_net w) (w_node w) sid raw nn' n' t ->
    nd_busy n' = nd_busy (w_node w) \/
    syncing n' /\ forall os a b, exists n2, run_call (CallSyncEpoch os a b) n' = (Ok RepUnit, n2, []) /\ nd_busy n2 = Idle.
  Proof.
    intros w sid raw nn' n' t Hnone (cs & Hcs & _ & Hd).
    unfold TwoNodes.wire_begins in Hnone.
    destruct (on_message compress decompress (nd_disk (w_node w)) (w_net w) sid raw) as [r nA] eqn:Em. cbn [fst] in Hcs.
    assert (cs = [] -> nd_busy n' = nd_busy (w_node w)) as Hnil.
    { intros ->. cbn [TwoNodes.does] in Hd. injection Hd as <- _. reflexivity. }
    destruct r as [l|h b|s b|s r0|cno v|]; cbn [takes] in Hcs; try (left; apply Hnil, Hcs).
    - left. destruct Hcs as (l' & _ & ->). rewrite does_inserts in Hd. injection Hd as <- _. reflexivity.
    - destruct Hcs as (first & ->). cbn [TwoNodes.does] in Hd. destruct (run_call (CallSync b first) (w_node w)) as [[r n1] t1] eqn:E.
      injection Hd as <- _. cbn zeta in Hnone.
      assert (forall id nx rest, match send_request compress nA s (w_calls w) (RqEpoch id) with
                        | (Ok (rid, _), nA') => Some (rid, Wired nA' nx rest)
                        | _ => None
                        end <> None) as Hw.
      { intros id nx rest. destruct (request_sent compress decompress snappy nA s (w_calls w) (RqEpoch id)) as (raw' & -> & _). discriminate. }
      destruct (first_pull digest (w_node w) b) as [id|] eqn:Ef; [exfalso; exact (Hw _ _ _ Hnone)|].
      rewrite (first_pull_none digest root_of show verify shapes cf (w_node w) b first (Err (CNetwork 1)) Ef) in E.
      rewrite E in Hnone. cbn [fst snd] in Hnone.
      apply call_sync in E as (r1 & Hs & ->).
      inversion Hs as [rr|rich e Hb Hle He0|rich id e f Hb Hid Hcur Hat Hf Hpre]; subst; [left; reflexivity| |].
      + right. rewrite Hb in Hnone. cbn [set_busy nd_busy] in Hnone.
        destruct (N.leb_spec (u64v (wrap64 1)) (u64v rich)) as [_|Hlt]; [exfalso; exact (Hw _ _ _ Hnone)|].
        split; [eexists _, _, _, _; reflexivity|]. intros os x y. cbn [Consensus.run_call]. unfold abind at 1, sync_step. unfold abind at 1, aget at 1.
        cbn [set_busy nd_busy]. destruct (N.leb_spec (u64v (wrap64 1)) (u64v rich)) as [Hle2|_]; [lia|].
        eexists. split; [reflexivity|]. reflexivity.
      + discriminate Hf.
  Qed.

  (** Only a restart helps. *)
  Theorem C111_restart_helps : forall o1 o2 d n,
    happens digest root_of show verify shapes cf (Down d) (EvBoot o1 o2) = Up n -> nd_busy n = Idle.
  Proof.
    intros o1 o2 d n. cbn [happens]. destruct (handle_init _ _ _ _ _ _) as [[d'|x|] t]; try discriminate.
    destruct (start digest cf d') as [m|x|] eqn:E; try discriminate. intros [= <-].
    apply start_out in E as (e & _ & ->). reflexivity.
  Qed.
End Props.
Print Assumptions C111_waits_for_ever.
Print Assumptions C111_one_message_stops_a_node.
Print Assumptions C111_other_messages_do_not.
Print Assumptions C111_restart_helps.
