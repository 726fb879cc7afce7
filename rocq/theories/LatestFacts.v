(** * What holds of every epoch a node is handed holds of its latest epoch. *)
From Verif Require Import Base BaseFacts Hex Types Rlp RlpFacts FixedCodec FixedCodecFacts CodecProps StateAdapter Executor Mempool
  Merkle Bincode ConsMsg Proto ProtoFacts Wire WireFacts Storage StorageSpec StorageFacts StorageProps Consensus ConsSpec ConsFacts ConsInv
  ConsChain ConsMore ImmutFacts HeaderFacts.
Local Open Scope N_scope.

Section Latest.
  Context (digest : bytes -> hash) (root_of : gmap bytes bytes -> hash) (show : exec_err -> rstring)
          (verify : bytes -> bytes -> bytes -> bool) (shapes : nat -> shape).
  Context (cf : config).
  Notation run_call := (run_call digest root_of show verify shapes cf).
  Notation happens := (happens digest root_of show verify shapes cf).
  Notation history := (Consensus.history digest root_of show verify shapes cf).
  Notation along := (along digest root_of show verify shapes cf).
  Notation epochs_ok := (epochs_ok digest root_of show verify shapes cf).
  Notation epochs_seen := (epochs_seen digest root_of show verify shapes cf).
  Notation event_epochs := (event_epochs digest root_of cf).
  Notation seen_ok := (seen_ok digest root_of cf).
  Notation LK := (1, wenc_hash (LATEST_EPOCH_KEY digest)).
  Notation w_proof := (w_proof digest).

  Context (P : epoch -> Prop).

  Definition latest_is (m : db) : Prop := forall b, m !! LK = Some b -> exists e, b = wenc_epoch e /\ fits (wenc_epoch e) /\ P e.
  Lemma latest_is_eq (a b : db) : b !! LK = a !! LK -> latest_is a -> latest_is b.
  Proof. intros E H v. rewrite E. apply H. Qed.
  Lemma latest_is_new (m : db) (e : epoch) : fits (wenc_epoch e) -> P e -> m !! LK = Some (wenc_epoch e) -> latest_is m.
  Proof. intros Hf Hb E v. rewrite E. intros [= <-]. eauto. Qed.
  Lemma latest_is_applied (m : db) (tr : gmap hash (gmap bytes bytes)) (e : epoch) resp txs : ep_ok digest e -> P e -> latest_is m ->
    Forall (fun d : durable => latest_is d.1) (persist_all (m, tr) (applied_writes digest e resp txs)).
  Proof.
    intros He Hbl Hm. apply applied_forall; [|exact Hm|].
    - intros a b E. apply latest_is_eq, E.
    - intros a Ha. split; [|split].
      + apply (latest_is_eq m); [|exact Hm]. rewrite epoch_hashk. apply Ha.
      + apply (latest_is_eq m); [|exact Hm]. rewrite index_LK, epoch_hashk by exact He. apply Ha.
      + apply (latest_is_new _ e); [apply He|exact Hbl|apply latest_LK].
  Qed.
  Definition latest_node (n : node) : Prop :=
    match nd_busy n with Committing id p pf txs => ep_ok digest (pl_epoch p) /\ P (pl_epoch p) | _ => True end.

  Lemma latest_history (l : list event) : epochs_ok l -> Forall P (epochs_seen (Down (∅, ∅)) l) ->
    holds (fun d => latest_is d.1) latest_node (history l).
  Proof.
    intros Hok Hbl. apply epochs_ok_seen in Hok as [Hs HLP]. apply seen_along in Hbl.
    refine (machine_inv _ _ _ _ _ _ (fun d => latest_is d.1) latest_node
      (fun m e => seen_ok m e /\ Forall P (event_epochs m e)) _ _ _ _ _ _ l _).
    7:{ apply along_and; assumption. }
    - intros n c k H. exact H.
    - intros d o1 o2 k H. exact H.
    - intros b. cbn [fst]. rewrite lookup_empty. discriminate.
    - intros n c r n' t Hp Hb [Hse Hre] E. unfold latest_node in Hb |- *.
      assert (forall p, latest_is (w_proof (nd_disk n).1 p)) as Hw
        by (intros p; apply (latest_is_eq (nd_disk n).1); [apply proof_LK, HLP|exact Hp]).
      destruct (light_call c) eqn:L.
      { apply light_call_out in E as [(p & x & -> & Hkp) ->]; [|exact L]. split; [constructor|]. exact Hb. }
      destruct c as [| | |id cm|os sent|msg first|os re rt]; try discriminate.
      + apply call_commit in E as [r1 E]. unfold ConsInv.seen_ok in Hse. cbn [ConsSpec.event_epochs call_epochs] in Hse, Hre.
        apply Forall_cons in Hse as [He _]. apply Forall_cons in Hre as [Hbe _].
        destruct E as [r1 Hr1|eh r1 Hr1 Ei Eh|eh txs Ei Eh Eg].
        * split; [constructor|]. exact Hb.
        * split; [apply Forall_cons; split; [apply Hw|constructor]|]. exact Hb.
        * split; [apply Forall_cons; split; [apply Hw|constructor]|]. split; [exact He|exact Hbe].
      + apply call_rest in E as [r1 E]. destruct E as [|id p pf txs r1 Eb Hr1|id p pf txs resp tr' lo Eb Hx El].
        * split; [constructor|]. exact Hb.
        * split; [constructor|]. exact I.
        * rewrite Eb in Hb. destruct Hb as [He Hbe]. split.
          { apply Forall_cons; split; [exact Hp|]. apply latest_is_applied; assumption. }
          exact I.
      + apply call_sync in E as [r1 [E ->]]. split; [constructor|]. destruct E; try exact Hb; exact I.
      + apply call_sync_epoch in E as [r1 E].
        destruct E as [Hns|id rich ch sr Eb Hlt|id rich ch sr r1 Eb Hr1 Hre'|id rich ch sr r1 e Eb Hr1 -> Hl'|id rich ch sr e txs resp tr' Eb Hle -> -> Hl' Hx d1].
        * split; [constructor|]. exact Hb.
        * split; [constructor|]. exact I.
        * split; [constructor|]. exact I.
        * split; [apply Forall_cons; split; [apply Hw|constructor]|]. exact I.
        * unfold ConsInv.seen_ok in Hse. cbn [ConsSpec.event_epochs call_epochs] in Hse, Hre.
          apply Forall_cons in Hse as [He _]. apply Forall_cons in Hre as [Hbe _].
          split; [apply Forall_cons; split; [apply Hw|]; apply Forall_cons; split; [apply Hw|]; apply latest_is_applied; [assumption..|apply Hw]|].
          exact I.
    - intros d o1 o2 root tr Hp [Hse Hre] Hn Eg. unfold ConsInv.seen_ok in Hse. cbn [ConsSpec.event_epochs disk] in Hse, Hre. rewrite Eg in Hse, Hre.
      apply Forall_cons in Hse as [He _]. apply Forall_cons in Hre as [Hbe _]. rewrite genesis_trace. cbn zeta.
      set (e := genesis_epoch digest cf root) in *.
      assert (latest_is (w_epoch d.1 e)) as S3 by (apply (latest_is_eq d.1); [apply epoch_hashk|exact Hp]).
      assert (latest_is (w_index digest (w_epoch d.1 e) e)) as S4 by (apply (latest_is_eq (w_epoch d.1 e)); [apply index_LK, He|exact S3]).
      assert (latest_is (w_latest digest (w_index digest (w_epoch d.1 e) e) e)) as S5
        by (apply (latest_is_new _ e); [apply He|exact Hbe|apply latest_LK]).
      assert (latest_is (w_proof (w_latest digest (w_index digest (w_epoch d.1 e) e) e) (genesis_proof digest))) as S6
        by (eapply latest_is_eq; [apply proof_LK, HLP|exact S5]).
      repeat (apply Forall_cons; split; [assumption|]). apply Forall_nil. exact I.
    - intros d n Hp Hn. apply start_out in Hn as (e & He & ->). exact I.
  Qed.

  Lemma latest_all (l : list event) (e : epoch) : epochs_ok l -> Forall P (epochs_seen (Down (∅, ∅)) l) ->
    get_latest_epoch rocks_col digest (disk (history l)).1 = Ok e -> P e.
  Proof.
    intros Hok HP Hl. pose proof (latest_history l Hok HP) as Hh.
    assert (latest_is (disk (history l)).1) as Hp by (destruct (history l) as [d|n]; [exact Hh|apply Hh]).
    assert (latest_ok digest (disk (history l)).1) as Hlo by (intros b Hb; destruct (Hp b Hb) as (x & -> & Hf & _); eauto).
    destruct (read_latest_inv _ _ _ Hlo Hl) as [Hr Hf]. destruct (Hp _ Hr) as (e' & Heq & Hf' & Hbe).
    assert (e' = e) as -> by (apply enc_same; [assumption..|congruence]). exact Hbe.
  Qed.
End Latest.
