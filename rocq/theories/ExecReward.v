(** * The coinbase reward: visible in the live executor, absent from the
    committed state (C18). *)
From Verif Require Import Base BaseFacts Hex Types Rlp RlpFacts FixedCodec FixedCodecFacts CodecProps
  StateAdapter StateAdapterFacts Executor ExecSpec ExecutorFacts ExecProps ExecBlock ExecMore.
Local Open Scope N_scope.

Section Reward.
  Context (digest : bytes -> hash) (root_of : gmap bytes bytes -> hash) (show : exec_err -> rstring).

  Lemma pay_coinbase_bal fees : forall x a id,
    bal (Av (pay_coinbase digest x fees)) a id
    = bal (Av x) a id + (if decide (a = x_coinbase x) then fees_in id fees else 0).
  Proof.
    unfold pay_coinbase. induction fees as [|f fees IH]; intros x a id; cbn [fold_left fees_in].
    - destruct (decide _); lia.
    - rewrite IH. rewrite Av_set_acc, bal_insert, lookup_Av. cbn [set_acc x_coinbase].
      destruct (decide (a = x_coinbase x)) as [->|]; [|lia].
      rewrite add_balance_eq. unfold bal at 1.
      assert (E : account_balance match Av x !! x_coinbase x with Some acc => acc | None => new_account digest (x_coinbase x) end id
                  = bal (Av x) (x_coinbase x) id).
      { unfold bal. destruct (Av x !! x_coinbase x); [reflexivity|apply new_balance]. }
      rewrite E. unfold bal. destruct (decide (id = fee_asset_id f)), (decide (fee_asset_id f = id)); try congruence; lia.
  Qed.

  Lemma exec_visible os x ts resp x' :
    (forall n, order_ok (os n)) -> fresh x -> wf_accounts (committed x) ->
    exec digest root_of show os x ts = Ok (resp, x') ->
    forall a id, visible_balance x' a id
      = bal (committed x') a id + (if decide (a = x_coinbase x) then fees_in id (er_all_cycles_used resp) else 0).
  Proof.
    intros Hos Hf Hwf He a id. destruct (fresh_ledger x Hf) as [HL Hset].
    pose proof (exec_txs_ok digest show (fun n => os (S n)) x ts ltac:(intros; apply Hos) Hset) as H.
    rewrite HL in H. unfold exec in He.
    destruct (exec_txs digest show (fun n => os (S n)) x ts) as [[rs x1]|e|]; cbn [rbind] in He; try discriminate.
    destruct (ledger_txs digest (x_chain_id x) (start x) ts) as [[outs L]|e'|] eqn:El; try contradiction.
    destruct H as (-> & Hlen & HL1 & Hs1 & Henv).
    destruct (commit root_of (os 0%nat) _) as [root x3] eqn:Ec. injection He as <- <-.
    destruct (commit_spec root_of _ _ _ _ (Hos 0%nat) Ec) as (_ & C2 & _ & C4 & _).
    set (fees := all_cycles_used _) in *.
    destruct (pay_coinbase_spec digest x1 fees) as (P1 & _).
    rewrite visible_bal, C4, pay_coinbase_bal, C2, P1. cbn [er_all_cycles_used].
    rewrite (se_coinbase _ _ Henv). f_equal.
    assert (Hi : led_inv L) by (eapply ledger_txs_inv; [apply start_inv, Hwf|exact El]).
    pose proof (inv_view_bal L a id Hi) as B. rewrite <- HL1 in B. exact B.
  Qed.
End Reward.
