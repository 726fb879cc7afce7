(** * C44: batching of broadcast transactions. [es] ranges over all
    interleavings of calls, timer ticks and turns of the broadcaster. *)
From Verif Require Import Base BaseFacts Hex Types Rlp FixedCodec Broadcaster Keccak MempoolExamples.
Local Open Scope nat_scope.

(** What was gossiped, what the broadcaster holds and what is in its channel
    are together exactly what was handed over, in order. *)
Theorem C44_nothing_lost_repeated_or_reordered : forall Er size (es : list (bev Er)),
  let b := b_run size b_new es in gossiped b ++ b_cache b ++ b_chan b = handed es.
Proof. intros Er size es. exact (run_all size es). Qed.
Print Assumptions C44_nothing_lost_repeated_or_reordered.

Theorem C44_batches_within_size : forall Er size (es : list (bev Er)) k g,
  0 < size -> (k, g) ∈ b_sent (b_run size b_new es) -> 0 < length k /\ length k <= size.
Proof.
  intros Er size es k g H0 H. destruct (run_shape size es H0) as (_ & _ & X). apply X in H as [H1 H2].
  split; [|exact H2]. destruct k; [contradiction|cbn; lia].
Qed.
Print Assumptions C44_batches_within_size.

(** The broadcaster never holds a full batch, and handling a tick leaves it
    holding nothing; a tick that finds the channel drained sends everything. *)
Theorem C44_waiting_batch_below_size : forall Er size (es : list (bev Er)),
  0 < size -> length (b_cache (b_run size b_new es)) < size.
Proof. intros Er size es H0. apply (run_shape size es H0). Qed.
Print Assumptions C44_waiting_batch_below_size.
Theorem C44_tick_sends_what_is_held : forall Er size (es : list (bev Er)) g,
  let b := b_run size b_new es in
  0 < b_signals b -> let b' := b_run size b_new (es ++ [BSignal g]) in
  b_cache b' = [] /\ gossiped b' = gossiped b ++ b_cache b /\ b_chan b' = b_chan b /\
  (b_chan b = [] -> gossiped b' = handed es).
Proof.
  intros Er size es g b H b'. pose proof (run_all size es) as A. pose proof (run_all size (es ++ [BSignal g])) as B.
  fold b in A. fold b' in B. rewrite handed_snoc, app_nil_r in B.
  assert (C : b_cache b' = [] /\ b_chan b' = b_chan b).
  { unfold b'. rewrite b_snoc. fold b. cbn [b_step]. destruct (b_signals b); [lia|]. unfold do_broadcast. cbn.
    destruct (b_cache b) eqn:E; cbn; auto. }
  destruct C as [C1 C2]. unfold all_txs in A, B. rewrite C1, C2 in B. cbn in B.
  split; [exact C1|]. split; [|split; [exact C2|]].
  - rewrite <- A in B. rewrite app_assoc in B. apply app_inv_tail in B. exact B.
  - intros Hn. rewrite Hn, app_nil_r in B. exact B.
Qed.
Print Assumptions C44_tick_sends_what_is_held.

(** A tick is not lost while the previous one is pending: between a tick and
    the handling of a signal there is always a signal. *)
Theorem C44_tick_leaves_a_signal : forall Er size (es : list (bev Er)),
  0 < size -> 0 < b_signals (b_run size b_new (es ++ [BTimer])).
Proof.
  intros Er size es H0. rewrite b_snoc. cbn [b_step]. destruct (b_signals (b_run size b_new es) <? signal_cap) eqn:E; [cbn; lia|].
  apply Nat.ltb_ge in E. unfold signal_cap in E. lia.
Qed.
Print Assumptions C44_tick_leaves_a_signal.

(** Errors of gossip calls surface from later [broadcast_tx] calls: each at
    most once, in order. *)
Theorem C44_errors_reported_in_order : forall Er size (es : list (bev Er)),
  let b := b_run size b_new es in b_reported b ++ b_errs b = omap snd (b_sent b).
Proof. intros Er size es. exact (run_errs size es). Qed.
Print Assumptions C44_errors_reported_in_order.

(** "Sent at the latest at the next tick" is false: the tick can be handled
    before the transaction is taken from the channel. *)
Theorem C44_next_tick_misses_transaction_refuted : forall Er size t, 0 < size ->
  let es := [BSend t true; BTimer; BSignal (None : option Er)] in
  gossiped (b_run size b_new es) = [] /\ handed es = [t] /\ b_signals (b_run size b_new es) = 0.
Proof. intros Er size t _. cbn. auto. Qed.
Print Assumptions C44_next_tick_misses_transaction_refuted.

(** "Sent" is only an attempt: a batch whose gossip call failed is never sent
    again, whatever happens next. *)
Theorem C44_failed_batch_never_resent_refuted : forall Er (e : Er) size t es, 1 < size -> t ∉ handed es ->
  let b := b_run size b_new ([BSend t true; BTx None; BTimer; BSignal (Some e)] ++ es) in
  forall k, (k, None) ∈ b_sent b -> t ∉ k.
Proof.
  intros Er e size t es Hsize Hnew b.
  assert (H : exists l, b_sent b = ([t], Some e) :: l).
  { set (b0 := b_run size b_new [BSend t true; BTx None; BTimer; BSignal (Some e)]).
    assert (H0 : b_sent b0 = [([t], Some e)]).
    { unfold b0. cbn. destruct size as [|[|n]]; [lia|lia|]. reflexivity. }
    unfold b, b_run. rewrite fold_left_app. fold (b_run size b_new [BSend t true; BTx None; BTimer; BSignal (Some e)]). fold b0.
    clearbody b0. clear - H0. assert (X : exists l, b_sent b0 = ([t], Some e) :: l) by (exists []; exact H0). clear H0.
    revert b0 X. induction es as [|x es IH]; intros b0 X; [exact X|]. cbn. apply IH. destruct X as [l X].
    assert (D : forall d g, b_sent d = ([t], Some e) :: l -> exists l', b_sent (do_broadcast d g) = ([t], Some e) :: l').
    { intros d g Hd. unfold do_broadcast. destruct (b_cache d); [eauto|]. cbn. rewrite Hd. cbn. eauto. }
    destruct x as [u lock| |g|g]; cbn [b_step].
    - destruct lock; [destruct (b_errs b0)|]; cbn; eauto.
    - destruct (b_signals b0 <? signal_cap); cbn; eauto.
    - destruct (b_chan b0); [eauto|]. cbn zeta. destruct (_ =? size); [apply D; exact X|cbn; eauto].
    - destruct (b_signals b0); [eauto|]. apply D. exact X. }
  destruct H as [l Hl]. intros k Hk Ht.
  pose proof (run_all size ([BSend t true; BTx None; BTimer; BSignal (Some e)] ++ es)) as A. fold b in A.
  clearbody b. unfold all_txs, gossiped in A. rewrite Hl in A. cbn in A. injection A as A.
  rewrite Hl in Hk. apply elem_of_cons in Hk as [Hk|Hk]; [discriminate|]. apply Hnew.
  assert (X : t ∈ concat (map fst l) ++ b_cache b ++ b_chan b).
  { apply elem_of_app. left. apply elem_of_list_In, in_concat. exists k. split; [|apply elem_of_list_In; exact Ht].
    apply in_map_iff. exists (k, None). split; [reflexivity|apply elem_of_list_In; exact Hk]. }
  rewrite A in X. exact X.
Qed.
Print Assumptions C44_failed_batch_never_resent_refuted.

(** ** Non-vacuity: two full batches of two, one partial batch by tick *)
Definition ex_bc : list (bev nat) :=
  let t k := ex_tx k 10 100 in
  [BSend (t x01) true; BSend (t x02) true; BTx None; BSend (t x03) true; BTx (Some 7); BTx None; BTimer;
   BSend (t x04) true; BSignal None; BTx None; BTimer].
Example C44_nonvacuous :
  let b := b_run 2 b_new ex_bc in
  map (fun x => length x.1) (b_sent b) = [2; 1] /\ b_reported b = [7] /\ length (b_cache b) = 1 /\ 0 < b_signals b.
Proof. vm_compute. auto. Qed.
