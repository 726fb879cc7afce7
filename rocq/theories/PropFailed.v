(** * C12: a failed transaction leaves every account as it was, up to nonces *)
From Verif Require Import Base BaseFacts Types FixedCodec StateAdapter StateAdapterFacts Executor ExecSpec ExecutorFacts ExecProps ExecMore Keccak ExecExamples.
Local Open Scope N_scope.

(** An account with its nonce forgotten. *)
Definition but_nonce (a : account) : account :=
  match a with
  | AccUser u => AccUser (MkUserAccount (wrap64 0) (uac_assets u))
  | AccContract c => AccContract (MkContractAccount (wrap64 0) (cac_assets c) (cac_storage_root c))
  end.

(** No account appears or disappears; none gains, loses or changes an entry. *)
Theorem C12_failed_transaction_keeps_accounts : forall digest show o x t r x',
  order_ok o -> midblock digest show x -> exec_tx digest show o x t = Ok (r, x') -> succeeded r = false ->
  forall a, option_map but_nonce (ad_get (x_acc x') a) = option_map but_nonce (ad_get (x_acc x) a).
Proof.
  intros digest show o x t r x' Ho Hm He Hsu.
  destruct (exec_tx_step digest show o x t r x' Ho Hm He) as (out & n & L' & E & -> & HL & Hs' & Henv).
  destruct (mid_inv digest show x Hm) as [Hs Hi].
  rewrite (succ_out digest show x t out n (out_good_of _ _ _ _ _ _ _ Hi E)) in Hsu.
  destruct (ledger_tx_spec digest _ _ _ _ _ _ Hi E) as (Hi' & _ & _ & _ & Hb & _ & _ & _ & Hout & _).
  destruct out as [res|e|]; [discriminate| |contradiction].
  destruct Hout as (_ & -> & HD & _). rewrite <- HL in *.
  assert (forall L, led_inv L -> forall a, option_map but_nonce (lg_view L !! a) = option_map but_nonce (lg_durable L !! a)) as H.
  { intros L [_ [->|(b & acc & E1 & ->)]] a; [reflexivity|].
    destruct (decide (b = a)) as [->|Hn]; [|rewrite lookup_insert_ne by exact Hn; reflexivity].
    rewrite lookup_insert, E1. cbn. f_equal. destruct acc; reflexivity. }
  intros a. rewrite !lookup_Av. change (Av x') with (lg_view (ledger_of x')). change (Av x) with (lg_view (ledger_of x)).
  rewrite (H _ Hi'), (H _ Hi), HD. reflexivity.
Qed.
Print Assumptions C12_failed_transaction_keeps_accounts.

(** A payment that runs out of cycles after both balances were changed. *)
Definition fails_b (r : res exec_err (receipt * executor)) : bool := match r with Ok (rc, _) => negb (succeeded rc) | _ => false end.
Lemma fails_true : fails_b (exec_tx keccak showx canon_order x0 (pay 100 20)) = true.
Proof. vm_compute. reflexivity. Qed.
Example C12_accounts_example : exists r x', exec_tx keccak showx canon_order x0 (pay 100 20) = Ok (r, x') /\ succeeded r = false /\
  forall a, option_map but_nonce (ad_get (x_acc x') a) = option_map but_nonce (ad_get (x_acc x0) a).
Proof.
  pose proof fails_true as H. destruct (exec_tx keccak showx canon_order x0 (pay 100 20)) as [[r x']|e|] eqn:E; [|discriminate H..].
  cbn [fails_b] in H. apply negb_true_iff in H. exists r, x'. split; [reflexivity|]. split; [exact H|].
  exact (C12_failed_transaction_keeps_accounts keccak showx canon_order x0 (pay 100 20) r x' (canons_ok O) (fresh_mid keccak showx x0 x0_fresh x0_wf) E H).
Qed.
