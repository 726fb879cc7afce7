(** * C89, continued: the peer goes on working while a node catches up from it. *)
From Verif Require Import Base BaseFacts Hex Types Rlp RlpFacts FixedCodec FixedCodecFacts CodecProps StateAdapter Executor Mempool
  Merkle Bincode ConsMsg PropConsMsg Proto ProtoFacts Wire WireFacts Storage StorageSpec StorageFacts StorageProps
  Consensus ConsSpec ConsFacts ConsInv ConsChain ConsMore SyncSpec SyncFacts PropConsensus PropSync PropImmut.
Local Open Scope N_scope.

(** At two times a peer has the same epochs of the chain [c] under their
    numbers, and the same transactions in them; whatever else it has. *)
Definition same_chain (c : list epoch) (peer peer' : durable) : Prop :=
  (forall i e, c !! i = Some e -> get_epoch_by_epoch_id rocks_col peer'.1 (wrap64 (N.of_nat i)) = get_epoch_by_epoch_id rocks_col peer.1 (wrap64 (N.of_nat i))) /\
  (forall e h, e ∈ c -> h ∈ ep_ordered_tx_hashes e -> get_transaction_by_hash rocks_col peer'.1 h = get_transaction_by_hash rocks_col peer.1 h).

Section Grow.
  Context (digest : bytes -> hash) (root_of : gmap bytes bytes -> hash) (show : exec_err -> rstring)
          (verify : bytes -> bytes -> bytes -> bool) (shapes : nat -> shape) (cf : config).
  Notation run_call := (run_call digest root_of show verify shapes cf).
  Notation history := (Consensus.history digest root_of show verify shapes cf).
  Notation always C := (along digest root_of show verify shapes cf C (Down (∅, ∅))).
  Notation epochs_ok := (epochs_ok digest root_of show verify shapes cf).
  Notation latest d := (get_latest_epoch rocks_col digest (fst d)).
  Notation pull := (pull digest root_of show verify shapes cf).
  Notation after_pull := (after_pull digest root_of show verify shapes cf).
  Notation after_pulls := (after_pulls digest root_of show verify shapes cf).
  Notation pulls_ok := (pulls_ok digest root_of show verify shapes cf).
  Notation pulls_disks := (pulls_disks digest root_of show verify shapes cf).
  Notation announced := (announced digest root_of show verify shapes cf).

  (** Pulls from a peer whose disk is another one at each of them. *)
  Definition after_moving (n : node) (ps : list (durable * (nat -> iter_order))) : node :=
    fold_left (fun n p => after_pull p.1 n p.2) ps n.
  Fixpoint moving_ok (n : node) (ps : list (durable * (nat -> iter_order))) : Prop :=
    match ps with
    | [] => True
    | p :: r => is_ok (pull p.1 n p.2).1.1 = true /\ moving_ok (after_pull p.1 n p.2) r
    end.
  Fixpoint moving_disks (n : node) (ps : list (durable * (nat -> iter_order))) : list durable :=
    match ps with
    | [] => []
    | p :: r => (pull p.1 n p.2).2 ++ moving_disks (after_pull p.1 n p.2) r
    end.

  Lemma map_res_same {E A B} (f g : A -> res E B) l : (forall x, x ∈ l -> f x = g x) -> map_res f l = map_res g l.
  Proof.
    induction l as [|a l IH]; intros H; [reflexivity|]. cbn [map_res]. rewrite (H a) by (apply elem_of_cons; left; reflexivity).
    rewrite IH; [reflexivity|]. intros x Hx. apply H. apply elem_of_cons. right. exact Hx.
  Qed.

  Section Peer.
    Context (peer : durable) (c : list epoch).
    Context (Hgp : good_peer digest peer c) (Hfit : answers_fit peer c) (Hdis : headers_distinct digest c).

    Lemma ask_epoch_same peer' i e : same_chain c peer peer' -> c !! i = Some e ->
      ask peer' (RqEpoch (wrap64 (N.of_nat i))) = ask peer (RqEpoch (wrap64 (N.of_nat i))).
    Proof.
      intros [S _] He. unfold ask.
      assert (fits (enc_request (RqEpoch (wrap64 (N.of_nat i))))) as Hf.
      { cbn [enc_request]. unfold fits. rewrite blen_app. unfold benc_u64, blen. rewrite !le_length. reflexivity. }
      pose proof (C66_roundtrip_request (RqEpoch (wrap64 (N.of_nat i))) [] Hf) as Hr. rewrite app_nil_r in Hr. rewrite Hr.
      unfold rpc_serve. rewrite (S i e He). reflexivity.
    Qed.
    Lemma ask_txs_same peer' e : same_chain c peer peer' -> e ∈ c ->
      ask peer' (RqTxs (ep_ordered_tx_hashes e)) = ask peer (RqTxs (ep_ordered_tx_hashes e)).
    Proof.
      intros [_ S] He. unfold ask. destruct (Hfit e He) as (_ & _ & Hq & _).
      pose proof (C66_roundtrip_request _ [] Hq) as Hr. rewrite app_nil_r in Hr. rewrite Hr.
      unfold rpc_serve. rewrite (map_res_same _ (get_transaction_by_hash rocks_col peer.1) (ep_ordered_tx_hashes e)); [reflexivity|].
      intros h Hh. exact (S e h He Hh).
    Qed.

    Lemma pull_same peer' k L d0 n j os : (L < length c)%nat -> N.of_nat L + 1 < two64 -> J digest peer c k L d0 n j -> same_chain c peer peer' -> pull peer' n os = pull peer n os.
    Proof.
      intros HL Hs (Hj & _ & _ & Hw) S. unfold SyncSpec.pull. destruct Hw as [Eb|(ch & sr & e & Eb & _)].
      { unfold next_epoch, next_txs, next_epoch. rewrite Eb. reflexivity. }
      destruct (decide (j < L)%nat) as [Hlt|Hge].
      - destruct (lookup_lt_is_Some_2 c (Datatypes.S j)) as [f Hf]; [lia|].
        assert (next_epoch peer' n = next_epoch peer n /\ next_epoch peer n = Ok (RpEpoch f)) as [E1 E2].
        { unfold next_epoch. rewrite Eb. replace (wrap64 (N.of_nat j + 1)) with (wrap64 (N.of_nat (Datatypes.S j))) by (f_equal; lia).
          split; [exact (ask_epoch_same peer' _ _ S Hf)|]. exact (ask_epoch digest peer c Hgp Hfit _ _ Hf). }
        unfold next_txs. rewrite E1, E2, (ask_txs_same peer' f S) by (eapply elem_of_list_lookup_2; exact Hf). reflexivity.
      - assert (j = L) as -> by lia. cbn [Consensus.run_call]. unfold abind at 1, sync_step, abind at 1, aget at 1. rewrite Eb.
        assert (N.of_nat L + 1 <=? wrap64 (N.of_nat L) = false) as Hle by (apply N.leb_gt; rewrite wrap64_small by lia; lia).
        symmetry. unfold abind at 1, sync_step, abind at 1, aget at 1. rewrite Eb, Hle. reflexivity.
    Qed.

    Lemma moving_same k L d0 ps : (L < length c)%nat -> N.of_nat L + 1 < two64 -> Forall (fun p => same_chain c peer p.1) ps -> forall n j, J digest peer c k L d0 n j ->
      after_moving n ps = after_pulls peer n (map snd ps) /\ moving_disks n ps = pulls_disks peer n (map snd ps) /\
      (moving_ok n ps <-> pulls_ok peer n (map snd ps)).
    Proof.
      intros HL Hs F. induction F as [|[p os] ps Hp _ IH]; intros n j HJ; [split; [reflexivity|]; split; [reflexivity|split; auto]|].
      cbn [fst] in Hp. pose proof (pull_same p k L d0 n j os HL Hs HJ Hp) as E.
      destruct (pulls_inv digest root_of show verify shapes cf peer c Hgp Hfit Hdis k L d0 [os] HL n j HJ) as (j' & _ & HJ' & _).
      cbn [SyncSpec.after_pulls fold_left] in HJ'. destruct (IH _ _ HJ') as (A & B & C).
      unfold after_moving. cbn [map snd fold_left fst moving_disks SyncSpec.pulls_disks moving_ok SyncSpec.pulls_ok].
      assert (after_pull p n os = after_pull peer n os) as E' by (unfold SyncSpec.after_pull; rewrite E; reflexivity).
      rewrite E', E. split; [exact A|]. split; [rewrite B; reflexivity|]. rewrite C. reflexivity.
    Qed.

    (** A node catching up from a peer that goes on -- committing, executing,
        synchronising itself, crashing and restarting between the answers, so
        that each pull meets another disk -- does what it would have done had
        the peer stood still. *)
    Theorem C89_peer_goes_on : forall n k L n1 ps,
      stands_at digest n c k -> (k + 2 <= L < length c)%nat -> N.of_nat L + 1 < two64 ->
      announced peer n k L = (Ok RepUnit, n1, []) -> Forall (fun p => same_chain c peer p.1) ps ->
      after_moving n1 ps = after_pulls peer n1 (map snd ps) /\ moving_disks n1 ps = pulls_disks peer n1 (map snd ps) /\
      (moving_ok n1 ps <-> pulls_ok peer n1 (map snd ps)).
    Proof using Hgp Hfit Hdis.
      intros n k L n1 ps Hst HL Hs Ean F.
      destruct (C89_starts digest root_of show verify shapes cf peer c n k L Hgp Hfit Hst HL Hs) as (n1' & ch & sr & E & Hb & Hd & _ & _ & Hc).
      rewrite E in Ean. injection Ean as ->.
      exact (moving_same k L (nd_disk n) ps ltac:(lia) Hs F n1 k (start_J digest shapes peer c n k L n1 ch sr Hgp Hst ltac:(lia) Hb Hd Hc)).
    Qed.
  End Peer.

  Lemma chain_bound peer c e i x : good_peer digest peer c -> last c = Some e -> c !! i = Some x -> N.of_nat i <= eh_epoch_id (ep_header e).
  Proof.
    intros [[H _] _] Hl Hi. rewrite last_lookup in Hl. destruct (H _ _ Hl) as [E _]. apply lookup_lt_Some in Hi. rewrite E. lia.
  Qed.
  (** A node that goes on, with commits and synchronised epochs that extend
      its chain, keeps serving the chain it had; if the transactions of the
      chain keep the bytes under which it served them, it is the same peer. *)
  Lemma history_same_chain l l' e c : epochs_ok (l ++ l') -> always one_more (l ++ l') -> good_peer digest (disk (history l)) c ->
    latest (disk (history l)) = Ok e -> last c = Some e ->
    (forall x h, x ∈ c -> h ∈ ep_ordered_tx_hashes x ->
       get_transaction_by_hash rocks_col (disk (history (l ++ l'))).1 h = get_transaction_by_hash rocks_col (disk (history l)).1 h) ->
    same_chain c (disk (history l)) (disk (history (l ++ l'))).
  Proof.
    intros Hok Hom Hgp Hl Hlast Ht. split; [|exact Ht]. intros i x Hi.
    destruct (C96_epochs_stay digest root_of show verify shapes cf l l' e Hok Hom Hl) as [S _].
    pose proof (chain_bound _ _ _ _ _ Hgp Hlast Hi) as Hb. pose proof (u64_lt (eh_epoch_id (ep_header e))) as Hu.
    destruct (S (wrap64 (N.of_nat i))) as [E _]; [rewrite wrap64_small by lia; exact Hb|exact E].
  Qed.

  (** So a node catches up from a peer that is itself at work: from a node
      with the history [l] when it announces itself, and the history [l ++ l']
      for some [l'], another at each pull, when it answers.  If no pull fails,
      everything up to what was announced is copied. *)
  Theorem C89_working_peer : forall l e0 c n k L n1 e (lps : list (list event * (nat -> iter_order))),
    good_peer digest (disk (history l)) c -> answers_fit (disk (history l)) c -> headers_distinct digest c ->
    latest (disk (history l)) = Ok e0 -> last c = Some e0 ->
    Forall (fun p => epochs_ok (l ++ p.1) /\ always one_more (l ++ p.1) /\
      forall x h, x ∈ c -> h ∈ ep_ordered_tx_hashes x ->
        get_transaction_by_hash rocks_col (disk (history (l ++ p.1))).1 h = get_transaction_by_hash rocks_col (disk (history l)).1 h) lps ->
    stands_at digest n c k -> (k + 2 <= L < length c)%nat -> N.of_nat L + 1 < two64 -> c !! L = Some e ->
    announced (disk (history l)) n k L = (Ok RepUnit, n1, []) ->
    let ps := map (fun p => (disk (history (l ++ p.1)), p.2)) lps in
    let n2 := after_moving n1 ps in
    (exists j, (k <= j <= L)%nat /\ has_copied digest (disk (history l)) c k j (nd_disk n2) /\ only_copied c k j (nd_disk n) (nd_disk n2)) /\
    (forall d, d ∈ moving_disks n1 ps -> exists j, (k <= j <= L)%nat /\ has_copied digest (disk (history l)) c k j d) /\
    (length lps = (L - k + 1)%nat -> moving_ok n1 ps ->
     has_copied digest (disk (history l)) c k L (nd_disk n2) /\ only_copied c k L (nd_disk n) (nd_disk n2) /\ nd_busy n2 = Idle /\
     cs_epoch_id (nd_status n2) = wrap64 (N.of_nat L + 1) /\ cs_prev_hash (nd_status n2) = digest (enc_epoch e)).
  Proof.
    intros l e0 c n k L n1 e lps Hgp Hfit Hdis Hl0 Hlast F Hst HL Hs He Ean ps n2.
    assert (Forall (fun p => same_chain c (disk (history l)) p.1) ps) as F'.
    { unfold ps. clear -F Hgp Hl0 Hlast. induction F as [|p lps (A & B & C) _ IH]; cbn [map]; [constructor|]. apply Forall_cons. split; [|exact IH].
      cbn [fst]. exact (history_same_chain l p.1 e0 c A B Hgp Hl0 Hlast C). }
    destruct (C89_peer_goes_on (disk (history l)) c Hgp Hfit Hdis n k L n1 ps Hst HL Hs Ean F') as (E1 & E2 & E3).
    destruct (C89_copies digest root_of show verify shapes cf (disk (history l)) c n k L n1 (map snd ps) Hgp Hfit Hdis Hst HL Hs Ean) as [X Y].
    unfold n2. rewrite E1, E2. split; [exact X|]. split; [exact Y|]. intros Hlen Hok. apply E3 in Hok.
    destruct (C89_completes digest root_of show verify shapes cf (disk (history l)) c n k L n1 (map snd ps) e Hgp Hfit Hdis Hst HL Hs He Ean) as (A & B & C & D & G & _).
    { unfold ps. rewrite !map_length. exact Hlen. }
    { exact Hok. }
    auto.
  Qed.
End Grow.
Print Assumptions C89_peer_goes_on.
Print Assumptions C89_working_peer.
