(** * core/mempool/src/adapter/mod.rs:40-128, 201-220: the task that gossips new
    transactions in batches. *)
From Verif Require Import Base BaseFacts Hex Types Rlp FixedCodec.
Local Open Scope nat_scope.

(** One event is one turn of one task.  [g] is the answer of
    [gossip.broadcast] should the turn call it.
    - [BSend t lock]: [broadcast_tx] (adapter/mod.rs:211-226): sends into the
      unbounded channel, then takes one reported error if [try_lock] succeeds;
    - [BTimer]: [timer] (74-92) tries to put a signal into the bounded channel;
    - [BTx g], [BSignal g]: [select!] (57-71) picks the channel of transactions
      or of signals (a choice that is not ready changes nothing). *)
Section Broadcaster.
  Context {Er : Type}.   (* errors of the network *)

  Inductive bev := BSend (t : signed_tx) (lock : bool) | BTimer | BTx (g : option Er) | BSignal (g : option Er).

  (** [b_sent]: the batches passed to [gossip.broadcast] with its answer;
      [b_reported]: errors returned by [broadcast_tx] (both not variables of
      the program). *)
  Record bst := MkB {
    b_chan : list signed_tx; b_signals : nat; b_cache : list signed_tx; b_errs : list Er;
    b_sent : list (list signed_tx * option Er); b_reported : list Er }.
  Definition b_new : bst := MkB [] 0 [] [] [] [].

  (** [channel(1)] with one sender holds [1 + 1] messages. *)
  Definition signal_cap : nat := 2.

  (** [do_broadcast], adapter/mod.rs:94-127 *)
  Definition do_broadcast (b : bst) (g : option Er) : bst :=
    match b_cache b with
    | [] => b
    | batch => MkB (b_chan b) (b_signals b) []
                   (match g with Some e => b_errs b ++ [e] | None => b_errs b end)
                   (b_sent b ++ [(batch, g)]) (b_reported b)
    end.

  Definition b_step (size : nat) (b : bst) (e : bev) : bst :=
    match e with
    | BSend t lock =>
        let chan := b_chan b ++ [t] in
        match lock, b_errs b with
        | true, err :: errs => MkB chan (b_signals b) (b_cache b) errs (b_sent b) (b_reported b ++ [err])
        | _, _ => MkB chan (b_signals b) (b_cache b) (b_errs b) (b_sent b) (b_reported b)
        end
    | BTimer =>
        if b_signals b <? signal_cap
        then MkB (b_chan b) (S (b_signals b)) (b_cache b) (b_errs b) (b_sent b) (b_reported b) else b
    | BTx g =>
        match b_chan b with
        | [] => b
        | t :: chan =>
            let b' := MkB chan (b_signals b) (b_cache b ++ [t]) (b_errs b) (b_sent b) (b_reported b) in
            if length (b_cache b') =? size then do_broadcast b' g else b'
        end
    | BSignal g =>
        match b_signals b with
        | 0 => b
        | S n => do_broadcast (MkB (b_chan b) n (b_cache b) (b_errs b) (b_sent b) (b_reported b)) g
        end
    end.
  Definition b_run (size : nat) (b : bst) (es : list bev) : bst := fold_left (b_step size) es b.

  (** ** Specification: the transactions handed over, in order *)
  Definition handed (es : list bev) : list signed_tx :=
    omap (fun e => match e with BSend t _ => Some t | _ => None end) es.
  Definition gossiped (b : bst) : list signed_tx := concat (map fst (b_sent b)).

  (** ** Facts *)
  Lemma b_snoc size es e : b_run size b_new (es ++ [e]) = b_step size (b_run size b_new es) e.
  Proof. unfold b_run. rewrite fold_left_app. reflexivity. Qed.
  Lemma handed_snoc es e : handed (es ++ [e]) = handed es ++ match e with BSend t _ => [t] | _ => [] end.
  Proof. unfold handed. rewrite omap_app. destruct e; reflexivity. Qed.

  Definition all_txs (b : bst) : list signed_tx := gossiped b ++ b_cache b ++ b_chan b.
  Lemma do_all b g : all_txs (do_broadcast b g) = all_txs b.
  Proof.
    unfold do_broadcast. destruct (b_cache b) as [|t k] eqn:Ec; [reflexivity|].
    unfold all_txs, gossiped. cbn. rewrite map_app, concat_app, Ec. cbn. rewrite app_nil_r, <- app_assoc. reflexivity.
  Qed.
  Lemma step_all size b e : all_txs (b_step size b e) = all_txs b ++ match e with BSend t _ => [t] | _ => [] end.
  Proof.
    destruct e as [t lock| |g|g]; cbn [b_step].
    - assert (X : forall errs rep, all_txs (MkB (b_chan b ++ [t]) (b_signals b) (b_cache b) errs (b_sent b) rep) = all_txs b ++ [t]).
      { intros. unfold all_txs, gossiped. cbn. rewrite !app_assoc. reflexivity. }
      destruct lock; [destruct (b_errs b)|]; apply X.
    - rewrite app_nil_r. destruct (b_signals b <? signal_cap); reflexivity.
    - rewrite app_nil_r. destruct (b_chan b) as [|t chan] eqn:Ec; [reflexivity|]. cbn zeta.
      assert (X : all_txs (MkB chan (b_signals b) (b_cache b ++ [t]) (b_errs b) (b_sent b) (b_reported b)) = all_txs b).
      { unfold all_txs, gossiped. cbn. rewrite Ec, <- !app_assoc. reflexivity. }
      destruct (_ =? size); [rewrite do_all|]; exact X.
    - rewrite app_nil_r. destruct (b_signals b); [reflexivity|]. rewrite do_all. reflexivity.
  Qed.
  Lemma run_all size es : all_txs (b_run size b_new es) = handed es.
  Proof.
    induction es as [|e es IH] using rev_ind; [reflexivity|]. rewrite b_snoc, step_all, IH, handed_snoc. reflexivity.
  Qed.

  (** Batches *)
  Definition shape (size : nat) (b : bst) : Prop :=
    length (b_cache b) < size /\ b_signals b <= signal_cap /\
    forall k g, (k, g) ∈ b_sent b -> k <> [] /\ length k <= size.
  Lemma shape_do size b g : length (b_cache b) <= size -> b_signals b <= signal_cap -> 0 < size ->
    (forall k g, (k, g) ∈ b_sent b -> k <> [] /\ length k <= size) -> shape size (do_broadcast b g).
  Proof.
    intros H1 H2 H3 H4. unfold do_broadcast. destruct (b_cache b) as [|t k] eqn:Ec.
    - split; [rewrite Ec; exact H3|]. auto.
    - split; [exact H3|]. split; [exact H2|]. intros k' g' H. cbn in H. apply elem_of_app in H as [H|H]; [exact (H4 _ _ H)|].
      apply elem_of_list_singleton in H. injection H as -> ->. split; [discriminate|exact H1].
  Qed.
  Lemma shape_step size b e : 0 < size -> shape size b -> shape size (b_step size b e).
  Proof.
    intros H0 (H1 & H2 & H3). destruct e as [t lock| |g|g]; cbn [b_step].
    - destruct lock; [destruct (b_errs b)|]; split; auto.
    - destruct (b_signals b <? signal_cap) eqn:E; [|split; auto]. apply Nat.ltb_lt in E. split; [exact H1|]. split; [exact E|exact H3].
    - destruct (b_chan b) as [|t chan] eqn:Ec; [split; auto|]. cbn zeta.
      destruct (_ =? size) eqn:E.
      + apply Nat.eqb_eq in E. apply shape_do; auto. rewrite E. lia.
      + apply Nat.eqb_neq in E. cbn in E. rewrite app_length in E. cbn in E. split; [|auto]. cbn. rewrite app_length. cbn. lia.
    - destruct (b_signals b) as [|n] eqn:En; [split; auto; rewrite En; auto|]. apply shape_do; auto; cbn; lia.
  Qed.
  Lemma run_shape size es : 0 < size -> shape size (b_run size b_new es).
  Proof.
    intros H0. induction es as [|e es IH] using rev_ind.
    - split; [exact H0|]. split; [cbn; lia|]. intros k g H. inversion H.
    - rewrite b_snoc. apply shape_step; assumption.
  Qed.

  (** Errors *)
  Definition failures (b : bst) : list Er := omap snd (b_sent b).
  Lemma step_errs size b e : b_reported b ++ b_errs b = failures b ->
    let b' := b_step size b e in b_reported b' ++ b_errs b' = failures b'.
  Proof.
    intros H.
    assert (Hdo : forall d g, b_reported d ++ b_errs d = failures d ->
      b_reported (do_broadcast d g) ++ b_errs (do_broadcast d g) = failures (do_broadcast d g)).
    { intros d g Hd. unfold do_broadcast. destruct (b_cache d); [exact Hd|]. unfold failures in *. cbn. rewrite omap_app, <- Hd.
      destruct g; cbn; [rewrite <- app_assoc|rewrite app_nil_r]; reflexivity. }
    destruct e as [t lock| |g|g]; cbn [b_step].
    - destruct lock; [destruct (b_errs b) eqn:Ee|]; cbn; unfold failures in *; cbn; try (rewrite <- H; rewrite ?Ee; reflexivity).
      rewrite <- H, <- app_assoc. reflexivity.
    - destruct (b_signals b <? signal_cap); exact H.
    - destruct (b_chan b); [exact H|]. cbn zeta. destruct (_ =? size); [apply Hdo|]; exact H.
    - destruct (b_signals b); [exact H|]. apply Hdo. exact H.
  Qed.
  Lemma run_errs size es : let b := b_run size b_new es in b_reported b ++ b_errs b = failures b.
  Proof.
    induction es as [|e es IH] using rev_ind; [reflexivity|]. rewrite b_snoc. apply step_errs, IH.
  Qed.
End Broadcaster.
Arguments bev : clear implicits.
Arguments bst : clear implicits.
