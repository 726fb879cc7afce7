(** * Executor properties C10-C25.

    Vocabulary (ExecSpec.v): [committed x] / [committed_assets x] are the
    contents of the tries of executor [x] (what its state root commits to);
    [fresh x] says [x] has just been opened; [wf_accounts] that user addresses
    hold user accounts (true of every state reachable from a genesis, C24);
    [order_ok] that an iteration order enumerates the hash map; [midblock x]
    that [x] is the state between two transactions of some block;
    [visible_balance x] what [get_balance] on the live executor returns. *)
From Verif Require Import Base BaseFacts Hex Types Rlp RlpFacts FixedCodec FixedCodecFacts CodecProps
  StateAdapter StateAdapterFacts Executor ExecSpec AdapterProps ExecutorFacts ExecProps ExecBlock ExecMore
  ExecReward ExecOrder ExecChain.
From Coq Require Import Permutation.
Local Open Scope N_scope.

(** ** C10: conservation *)
Theorem C10_block_conserves_every_asset : forall digest root_of show os x ts resp x',
  (forall n, order_ok (os n)) -> fresh x -> wf_accounts (committed x) ->
  exec digest root_of show os x ts = Ok (resp, x') ->
  wf_accounts (committed x') /\
  forall id, total id (committed x') = total id (committed x).
Proof.
  intros digest root_of show os x ts resp x' Hos Hf Hw He.
  exact (conj (exec_wf digest root_of show os x ts resp x' Hos Hf Hw He)
              (exec_total digest root_of show os x ts resp x' Hos Hf Hw He)).
Qed.
Print Assumptions C10_block_conserves_every_asset.

(** After a genesis and any number of blocks the total of every asset is the
    total of the genesis allocation, and the system token is still registered
    with its name and supply. *)
Theorem C10_history_conserves_every_asset : forall digest root_of show g code qs d r l chain e p cb,
  root_of ∅ = hash_from_empty digest -> parsed_genesis g code qs ->
  history digest root_of show g d r l -> clash_free root_of (∅ :: l) ->
  exists y, from_root digest chain r d e p cb = Ok y /\ fresh y /\ wf_accounts (committed y) /\
    (forall id, total id (committed y) = allocated_total id qs) /\
    (exists id ast, committed_assets y !! id = Some ast /\ as_name ast = gt_name (gn_system_token g) /\
                    as_supply ast = u64v (gt_supply (gn_system_token g))).
Proof. exact history_open. Qed.
Print Assumptions C10_history_conserves_every_asset.

(** ** C11: transfers *)
Theorem C11_transfer_succeeds_iff : forall digest show o x t r x' receiver c from,
  order_ok o -> midblock digest show x -> rt_action (st_raw t) = Transfer receiver c ->
  is_sender digest t from ->
  exec_tx digest show o x t = Ok (r, x') ->
  succeeded r = true <->
    is_Some (ad_get (x_bank x) (cr_asset_id c)) /\
    (exists u i, ad_get (x_acc x) from = Some (AccUser u) /\ uac_assets u !! cr_asset_id c = Some i /\
                 cr_amount c <= ai_balance i) /\
    210 <= fee_cycle (rt_fee (st_raw t)).
Proof. exact transfer_succeeds_iff. Qed.
Print Assumptions C11_transfer_succeeds_iff.

Theorem C11_transfer_effect : forall digest show o x t r x' receiver c from,
  order_ok o -> midblock digest show x -> rt_action (st_raw t) = Transfer receiver c ->
  is_sender digest t from -> exec_tx digest show o x t = Ok (r, x') -> succeeded r = true ->
  cr_amount c <= visible_balance x from (cr_asset_id c) /\
  (forall a id, visible_balance x' a id + (if decide (a = from /\ id = cr_asset_id c) then cr_amount c else 0)
      = visible_balance x a id + (if decide (a = AUser receiver /\ id = cr_asset_id c) then cr_amount c else 0)) /\
  (forall a, a <> from -> a <> AUser receiver -> ad_get (x_acc x') a = ad_get (x_acc x) a) /\
  (forall id, ad_get (x_bank x') id = ad_get (x_bank x) id) /\
  rc_result r = RTransfer receiver (cr_asset_id c)
    (visible_balance x from (cr_asset_id c)) (visible_balance x' from (cr_asset_id c)).
Proof. exact transfer_effect. Qed.
Print Assumptions C11_transfer_effect.

(** Whole blocks: committed balance = old balance + received - sent, over the
    successful transactions. *)
Theorem C11_block_balances : forall digest root_of show os x ts resp x',
  (forall n, order_ok (os n)) -> fresh x -> wf_accounts (committed x) ->
  exec digest root_of show os x ts = Ok (resp, x') ->
  forall a id,
    bal (committed x') a id + sum_succeeded (fun t => amount_sent digest t a id) ts (er_receipts resp)
    = bal (committed x) a id + sum_succeeded (fun t => amount_received t a id) ts (er_receipts resp).
Proof. exact exec_balances. Qed.
Print Assumptions C11_block_balances.

(** ** C12: failed transactions *)
Theorem C12_failed_transaction_no_effect : forall digest show o x t r x',
  order_ok o -> midblock digest show x -> exec_tx digest show o x t = Ok (r, x') -> succeeded r = false ->
  (forall a id, visible_balance x' a id = visible_balance x a id) /\
  (forall id, ad_get (x_bank x') id = ad_get (x_bank x) id) /\
  u64v (fee_cycle (rc_cycles_used r)) = 0 /\
  (exists e, rc_result r = RFail (show e) (lit [] eq_refl)).
Proof. exact failed_tx. Qed.
Print Assumptions C12_failed_transaction_no_effect.

Theorem C12_failed_last_same_root : forall digest root_of show os os' x ts t resp x1 resp' x1',
  (forall n, order_ok (os n)) -> (forall n, order_ok (os' n)) ->
  fresh x -> wf_accounts (committed x) ->
  exec digest root_of show os x ts = Ok (resp, x1) ->
  exec digest root_of show os' x (ts ++ [t]) = Ok (resp', x1') ->
  (exists r, last (er_receipts resp') = Some r /\ succeeded r = false) ->
  committed x1' = committed x1 /\ committed_assets x1' = committed_assets x1 /\
  er_state_root resp' = er_state_root resp.
Proof. exact failed_last. Qed.
Print Assumptions C12_failed_last_same_root.

(** ** C13, C14: receipts and cycles.  [n] is the number of cycles consumed. *)
Theorem C13_receipts_match_block : forall digest root_of show os x ts resp x',
  (forall n, order_ok (os n)) -> fresh x -> wf_accounts (committed x) ->
  exec digest root_of show os x ts = Ok (resp, x') ->
  length (er_receipts resp) = length ts /\
  (forall i t r, ts !! i = Some t -> er_receipts resp !! i = Some r ->
     rc_tx_hash r = st_tx_hash t /\ rc_epoch_id r = x_epoch_id x /\
     rc_state_root r = er_state_root resp /\
     fee_asset_id (rc_cycles_used r) = fee_asset_id (rt_fee (st_raw t)) /\
     exists n : N, n <= fee_cycle (rt_fee (st_raw t)) /\
       u64v (fee_cycle (rc_cycles_used r)) = (n * x_price x) mod two64 /\
       match rc_result r with
       | RTransfer to a _ _ => n = 210 /\ (exists c, rt_action (st_raw t) = Transfer to c /\ cr_asset_id c = a)
       | RDeploy _ ty => n = 2100 /\ ty = CtAsset /\ (exists code, rt_action (st_raw t) = Deploy code CtAsset)
       | RFail _ _ => n = 0
       | _ => False
       end).
Proof. exact exec_receipts. Qed.
Print Assumptions C13_receipts_match_block.

Theorem C14_cycles_within_limit : forall digest root_of show os x ts resp x' i t r,
  (forall n, order_ok (os n)) -> fresh x -> wf_accounts (committed x) ->
  exec digest root_of show os x ts = Ok (resp, x') ->
  ts !! i = Some t -> er_receipts resp !! i = Some r -> u64v (x_price x) = 1 ->
  fee_cycle (rc_cycles_used r) <= fee_cycle (rt_fee (st_raw t)).
Proof.
  intros digest root_of show os x ts resp x' i t r Hos Hf Hw He Ht Hr Hp.
  destruct (exec_receipts digest root_of show os x ts resp x' Hos Hf Hw He) as [_ H].
  destruct (H i t r Ht Hr) as (_ & _ & _ & _ & n & Hn & -> & _). rewrite Hp, N.mul_1_r.
  etransitivity; [apply N.mod_le; discriminate|exact Hn].
Qed.
Print Assumptions C14_cycles_within_limit.

(** ** C15: the adapter as a map with savepoints (AdapterProps.v) *)
Theorem C15_account_adapter_is_layered_map : forall m l,
  map_Forall (fun _ v => fits (enc_account v)) m -> Forall (op_ok account_schema) l ->
  let w := spec_run (MkSaves m m m) l in
  let b := byte_run account_schema (ba_new (enc_map account_schema m)) l in
  (forall k, ba_get account_schema b k = Ok (sv_now w !! k)) /\
  (forall k, ba_contains account_schema b k = bool_decide (is_Some (sv_now w !! k))) /\
  ba_trie b = enc_map account_schema (sv_committed w).
Proof. exact (byte_adapter_spec account_schema good_account_schema). Qed.
Print Assumptions C15_account_adapter_is_layered_map.

Theorem C15_asset_adapter_is_layered_map : forall m l,
  map_Forall (fun _ v => fits (enc_asset v)) m -> Forall (op_ok asset_schema) l ->
  let w := spec_run (MkSaves m m m) l in
  let b := byte_run asset_schema (ba_new (enc_map asset_schema m)) l in
  (forall k, ba_get asset_schema b k = Ok (sv_now w !! k)) /\
  (forall k, ba_contains asset_schema b k = bool_decide (is_Some (sv_now w !! k))) /\
  ba_trie b = enc_map asset_schema (sv_committed w).
Proof. exact (byte_adapter_spec asset_schema good_asset_schema). Qed.
Print Assumptions C15_asset_adapter_is_layered_map.

(** The typed adapters of the executor model answer like the byte adapters. *)
Theorem C15_typed_model_faithful : forall {K V : Type} `{Countable K} (s : schema K V), good_schema s ->
  forall m l, map_Forall (fun _ v => fits (sc_eval s v)) m -> Forall (op_ok s) l ->
  let t := typed_run (ad_new m) l in
  let b := byte_run s (ba_new (enc_map s m)) l in
  (forall k, ba_get s b k = Ok (ad_get t k)) /\
  (forall k, ba_contains s b k = ad_contains t k) /\
  ba_trie b = enc_map s (ad_trie t).
Proof. intros K V ? ? s Hs. exact (typed_adapter_spec s Hs). Qed.
Print Assumptions C15_typed_model_faithful.

(** ** C16: independence of iteration orders *)
Theorem C16_exec_deterministic : forall digest root_of show os os' x ts,
  (forall n, order_ok (os n)) -> (forall n, order_ok (os' n)) ->
  match exec digest root_of show os x ts, exec digest root_of show os' x ts with
  | Ok (resp, y), Ok (resp', y') =>
      resp = resp' /\ same_but_db y y' /\ (clash_free root_of (tries_of y) -> y = y')
  | Err e, Err e' => e = e'
  | Panic, Panic => True
  | _, _ => False
  end.
Proof. exact exec_orders. Qed.
Print Assumptions C16_exec_deterministic.

Theorem C16_genesis_deterministic : forall digest root_of o1 o2 o1' o2' x g,
  order_ok o1 -> order_ok o2 -> order_ok o1' -> order_ok o2' ->
  match create_genesis digest root_of o1 o2 x g, create_genesis digest root_of o1' o2' x g with
  | Ok (r, y), Ok (r', y') => r = r' /\ same_but_db y y' /\ (clash_free root_of (tries_of y) -> y = y')
  | Err e, Err e' => e = e'
  | Panic, Panic => True
  | _, _ => False
  end.
Proof. exact genesis_orders. Qed.
Print Assumptions C16_genesis_deterministic.

(** ** C17: asset registration *)
Theorem C17_assets_never_lost_or_altered : forall digest root_of show os x ts resp x' id ast,
  (forall n, order_ok (os n)) -> fresh x -> wf_accounts (committed x) ->
  exec digest root_of show os x ts = Ok (resp, x') ->
  committed_assets x !! id = Some ast -> committed_assets x' !! id = Some ast.
Proof. exact exec_assets_kept. Qed.
Print Assumptions C17_assets_never_lost_or_altered.

Theorem C17_new_assets_are_the_deployed_ones : forall digest root_of show os x ts resp x',
  (forall n, order_ok (os n)) -> fresh x -> wf_accounts (committed x) ->
  exec digest root_of show os x ts = Ok (resp, x') ->
  (forall id ast, committed_assets x' !! id = Some ast -> committed_assets x !! id = Some ast \/
     exists (i : nat) r c ty, er_receipts resp !! i = Some r /\ rc_result r = RDeploy c ty /\
       id = digest (sbytes (x_chain_id x) ++ ca c) /\ ast = deployed_asset digest (x_chain_id x) c) /\
  (forall (i : nat) r c ty, er_receipts resp !! i = Some r -> rc_result r = RDeploy c ty ->
     committed_assets x !! digest (sbytes (x_chain_id x) ++ ca c) = None /\
     committed_assets x' !! digest (sbytes (x_chain_id x) ++ ca c) = Some (deployed_asset digest (x_chain_id x) c)).
Proof. exact exec_assets. Qed.
Print Assumptions C17_new_assets_are_the_deployed_ones.

Theorem C17_deploy_outcome : forall digest show o x t r x' code from,
  order_ok o -> midblock digest show x -> rt_action (st_raw t) = Deploy code CtAsset ->
  is_sender digest t from -> exec_tx digest show o x t = Ok (r, x') ->
  exists acc c, ad_get (x_acc x) from = Some acc /\
    contract_from_code digest code (account_nonce acc) CtAsset = Ok c /\
    let id := digest (sbytes (x_chain_id x) ++ ca c) in
    match ad_get (x_bank x) id with
    | Some _ => rc_result r = RFail (show (EAssetExists id)) (lit [] eq_refl)
    | None =>
        if fee_cycle (rt_fee (st_raw t)) <? 2100
        then rc_result r = RFail (show EOutOfCycles) (lit [] eq_refl)
        else rc_result r = RDeploy c CtAsset /\
             forall id', ad_get (x_bank x') id' =
               (if decide (id' = id) then Some (deployed_asset digest (x_chain_id x) c) else ad_get (x_bank x) id')
    end.
Proof. exact deploy_tx. Qed.
Print Assumptions C17_deploy_outcome.

(** ** C18, C25: fees.  The live executor shows the reward, the committed
    state does not contain it: there the coinbase gains only what
    C11_block_balances says. *)
Theorem C18_reward_only_in_live_view : forall digest root_of show os x ts resp x',
  (forall n, order_ok (os n)) -> fresh x -> wf_accounts (committed x) ->
  exec digest root_of show os x ts = Ok (resp, x') ->
  forall a id, visible_balance x' a id
    = bal (committed x') a id + (if decide (a = x_coinbase x) then fees_in id (er_all_cycles_used resp) else 0).
Proof. exact exec_visible. Qed.
Print Assumptions C18_reward_only_in_live_view.

Theorem C18_idle_coinbase_gains_nothing : forall digest root_of show os x ts resp x',
  (forall n, order_ok (os n)) -> fresh x -> wf_accounts (committed x) ->
  exec digest root_of show os x ts = Ok (resp, x') ->
  Forall (fun t => ~ is_sender digest t (x_coinbase x) /\ ~ is_receiver t (x_coinbase x)) ts ->
  committed x' !! x_coinbase x = committed x !! x_coinbase x.
Proof.
  intros digest root_of show os x ts resp x' Hos Hf Hw He.
  exact (exec_untouched digest root_of show os x ts resp x' (x_coinbase x) Hos Hf Hw He).
Qed.
Print Assumptions C18_idle_coinbase_gains_nothing.

(** ** C19: nonces.  The committed nonce counts the transactions of the sender
    that are followed, in the same block, by a successful one. *)
Theorem C19_committed_nonce : forall digest root_of show os x ts resp x',
  (forall n, order_ok (os n)) -> fresh x -> wf_accounts (committed x) ->
  exec digest root_of show os x ts = Ok (resp, x') ->
  forall a, nonce (committed x') a
    = (nonce (committed x) a + followed_by_success digest a ts (tail (er_receipts resp))) mod two64.
Proof. exact exec_nonce. Qed.
Print Assumptions C19_committed_nonce.

(** ** C20: when a block aborts *)
Theorem C20_block_panics_iff : forall digest root_of show os x ts,
  (forall n, order_ok (os n)) -> fresh x -> wf_accounts (committed x) ->
  exec digest root_of show os x ts = Panic <->
  exists ts1 t ts2 resp1 x1, ts = ts1 ++ t :: ts2 /\
    exec digest root_of show os x ts1 = Ok (resp1, x1) /\ ~ supported t.
Proof. exact exec_panic_iff. Qed.
Print Assumptions C20_block_panics_iff.

Theorem C20_block_fails_iff : forall digest root_of show os x ts e,
  (forall n, order_ok (os n)) -> fresh x -> wf_accounts (committed x) ->
  exec digest root_of show os x ts = Err e <->
  exists ts1 t ts2 resp1 x1 a, ts = ts1 ++ t :: ts2 /\
    exec digest root_of show os x ts1 = Ok (resp1, x1) /\ supported t /\
    is_sender digest t a /\ committed x1 !! a = None /\ e = EAccountNotFound a.
Proof. exact exec_err_iff. Qed.
Print Assumptions C20_block_fails_iff.

Theorem C20_known_senders_suffice : forall digest root_of show os x ts,
  (forall n, order_ok (os n)) -> fresh x -> wf_accounts (committed x) ->
  Forall (fun t => supported t /\ exists a, is_sender digest t a /\ is_Some (committed x !! a)) ts ->
  exists resp x', exec digest root_of show os x ts = Ok (resp, x').
Proof. exact exec_total_ok. Qed.
Print Assumptions C20_known_senders_suffice.

(** ** C21: fee aggregation *)
Theorem C21_fees_per_asset : forall rs,
  map fee_asset_id (all_cycles_used rs) = first_uses (map (fun r => fee_asset_id (rc_cycles_used r)) rs) /\
  forall f, f ∈ all_cycles_used rs ->
    u64v (fee_cycle f) = fees_in (fee_asset_id f) (map rc_cycles_used rs) mod two64.
Proof. exact all_cycles_spec. Qed.
Print Assumptions C21_fees_per_asset.

Theorem C21_exec_reports_fees : forall digest root_of show os x ts resp x',
  exec digest root_of show os x ts = Ok (resp, x') ->
  er_all_cycles_used resp = all_cycles_used (er_receipts resp).
Proof.
  intros digest root_of show os x ts resp x'. unfold exec.
  destruct (exec_txs digest show (fun n => os (S n)) x ts) as [[rs x1]|e|]; cbn [rbind]; try discriminate.
  destruct (commit root_of (os O) _) as [root x3]. intros [= <- <-]. cbn [er_all_cycles_used er_receipts].
  unfold all_cycles_used. generalize (@nil fee). induction rs as [|r rs IH]; intros l; [reflexivity|]. cbn. apply IH.
Qed.
Print Assumptions C21_exec_reports_fees.

(** ** C22: genesis *)
Theorem C22_genesis_state : forall digest root_of o1 o2 x g code qs,
  order_ok o1 -> order_ok o2 -> fresh x -> committed x = ∅ -> committed_assets x = ∅ ->
  parsed_genesis g code qs ->
  exists c root x', contract_from_code digest code (wrap64 0) CtAsset = Ok c /\
    create_genesis digest root_of o1 o2 x g = Ok (root, x') /\
    fresh x' /\ x_chain_id x' = x_chain_id x /\ wf_accounts (committed x') /\
    x_trie x' = top_after root_of x (committed x') (committed_assets x') /\
    root = root_of (x_trie x') /\
    (forall a id, bal (committed x') a id = allocated a id qs) /\
    (forall id, total id (committed x') = allocated_total id qs) /\
    (forall a, nonce (committed x') a = 0) /\
    (forall a, is_Some (committed x' !! a) <-> exists ps, (a, ps) ∈ qs /\ ps <> []) /\
    committed_assets x' =
      {[ digest (sbytes (x_chain_id x) ++ ca c) := system_asset digest (x_chain_id x) c (gn_system_token g) ]}.
Proof. exact genesis_ok. Qed.
Print Assumptions C22_genesis_state.

Theorem C22_genesis_fails_iff_malformed : forall digest root_of o1 o2 x g,
  fresh x -> committed x = ∅ -> committed_assets x = ∅ ->
  (exists e, create_genesis digest root_of o1 o2 x g = Err e) <-> forall code qs, ~ parsed_genesis g code qs.
Proof. exact genesis_err. Qed.
Print Assumptions C22_genesis_fails_iff_malformed.

(** ** C23: frame *)
Theorem C23_untouched_accounts : forall digest root_of show os x ts resp x' a,
  (forall n, order_ok (os n)) -> fresh x -> wf_accounts (committed x) ->
  exec digest root_of show os x ts = Ok (resp, x') ->
  Forall (fun t => ~ is_sender digest t a /\ ~ is_receiver t a) ts ->
  committed x' !! a = committed x !! a.
Proof. exact exec_untouched. Qed.
Print Assumptions C23_untouched_accounts.

(** ** C24: reopening.  [ms] are tries committed to the same database later. *)
Theorem C24_reopen_after_exec : forall digest root_of show os x ts resp x' ms chain e p cb,
  root_of ∅ = hash_from_empty digest -> clash_free root_of (∅ :: tries_of x' ++ ms) ->
  (forall n, order_ok (os n)) ->
  exec digest root_of show os x ts = Ok (resp, x') -> state_fits x' ->
  exists y, from_root digest chain (er_state_root resp) (db_after root_of (x_db x') ms) e p cb = Ok y /\
    fresh y /\ committed y = committed x' /\ committed_assets y = committed_assets x' /\
    x_chain_id y = chain /\ x_epoch_id y = e /\ x_price y = p /\ x_coinbase y = cb.
Proof. exact reopen_exec. Qed.
Print Assumptions C24_reopen_after_exec.

Theorem C24_reopen_after_genesis : forall digest root_of o1 o2 x g root x' ms chain e p cb,
  root_of ∅ = hash_from_empty digest -> clash_free root_of (∅ :: tries_of x' ++ ms) -> order_ok o2 ->
  create_genesis digest root_of o1 o2 x g = Ok (root, x') -> state_fits x' ->
  exists y, from_root digest chain root (db_after root_of (x_db x') ms) e p cb = Ok y /\
    fresh y /\ committed y = committed x' /\ committed_assets y = committed_assets x' /\
    x_chain_id y = chain /\ x_epoch_id y = e /\ x_price y = p /\ x_coinbase y = cb.
Proof. exact reopen_genesis. Qed.
Print Assumptions C24_reopen_after_genesis.
