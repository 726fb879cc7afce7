(** * Lemmas: the executor refines the ledger of ExecSpec.v. *)
From Verif Require Import Base BaseFacts Hex Types Rlp RlpFacts FixedCodec FixedCodecFacts CodecProps
  StateAdapter StateAdapterFacts Executor ExecSpec.
From Coq Require Import Permutation.
Local Open Scope N_scope.

Definition Av (x : executor) := view (x_acc x).
Definition Ad (x : executor) := durable (x_acc x).
Definition Bv (x : executor) := view (x_bank x).
Definition Bd (x : executor) := durable (x_bank x).

(** Only the caches differ. *)
Record frame (x y : executor) : Prop := MkFrame {
  fr_chain : x_chain_id y = x_chain_id x;
  fr_epoch : x_epoch_id y = x_epoch_id x;
  fr_price : x_price y = x_price x;
  fr_coinbase : x_coinbase y = x_coinbase x;
  fr_trie : x_trie y = x_trie x;
  fr_db : x_db y = x_db x;
  fr_atrie : ad_trie (x_acc y) = ad_trie (x_acc x);
  fr_astash : ad_stash (x_acc y) = ad_stash (x_acc x);
  fr_btrie : ad_trie (x_bank y) = ad_trie (x_bank x);
  fr_bstash : ad_stash (x_bank y) = ad_stash (x_bank x) }.

Lemma frame_refl x : frame x x.
Proof. constructor; reflexivity. Qed.
Lemma frame_trans x y z : frame x y -> frame y z -> frame x z.
Proof. intros [] []; constructor; congruence. Qed.

Lemma frame_Ad x y : frame x y -> Ad y = Ad x.
Proof. intros []. unfold Ad, durable. congruence. Qed.
Lemma frame_Bd x y : frame x y -> Bd y = Bd x.
Proof. intros []. unfold Bd, durable. congruence. Qed.

Lemma wrap64_small n : n < two64 -> u64v (wrap64 n) = n.
Proof. intros H. cbn. apply N.mod_small, H. Qed.
Lemma wrap64_u64 (n : u64) : wrap64 n = n.
Proof. apply u64_eq. cbn. apply N.mod_small, N.ltb_lt, u64_ok. Qed.

Section Facts.
  Context (digest : bytes -> hash) (root_of : gmap bytes bytes -> hash)
          (show : exec_err -> rstring).

  Lemma user_addr_of_user u : user_from_bytes (address_bytes (AUser u)) = Ok u.
  Proof. apply user_from_bytes_ok. Qed.

  Definition sender (t : signed_tx) : address :=
    match user_from_pubkey digest (st_pubkey t) with
    | Ok u => AUser u
    | _ => AUser (UA (repeat x10 21) eq_refl)
    end.

  Lemma sender_ok t : exists u, user_from_pubkey digest (st_pubkey t) = Ok u /\ sender t = AUser u /\
    ua u = sender_bytes digest t.
  Proof.
    destruct (user_from_pubkey_spec digest (st_pubkey t)) as (u & E & Hu). exists u.
    unfold sender. rewrite E. auto.
  Qed.

  Lemma sender_spec t : is_sender digest t (sender t).
  Proof. destruct (sender_ok t) as (u & _ & -> & Hu). exact Hu. Qed.

  Lemma address_bytes_inj a b : address_bytes a = address_bytes b -> a = b.
  Proof.
    intros E. pose proof (address_from_bytes_ok a) as H1. pose proof (address_from_bytes_ok b) as H2.
    rewrite E in H1. congruence.
  Qed.

  Lemma sender_unique t a : is_sender digest t a -> a = sender t.
  Proof. intros H. apply address_bytes_inj. rewrite H. symmetry. apply sender_spec. Qed.

  Definition ctx_of (x : executor) (t : signed_tx) : invoke_ctx :=
    MkCtx (x_chain_id x) (wrap64 0) (fee_cycle (rt_fee (st_raw t)))
          (fee_asset_id (rt_fee (st_raw t))) (x_price x) (x_epoch_id x)
          (sender t) (x_coinbase x)
          (match rt_action (st_raw t) with
           | Transfer _ c => Some c | Call _ _ _ c => c | _ => None end).

  Lemma gen_invoke_ctx_ok x t : gen_invoke_ctx digest x t = Ok (ctx_of x t).
  Proof.
    unfold gen_invoke_ctx, ctx_of. destruct (sender_ok t) as (u & -> & -> & _). reflexivity.
  Qed.

  (** ** Dispatch refines [run_tx] *)
  Definition dispatch_rel (x : executor) (t : signed_tx) : Prop :=
    match dispatch digest t (x, ctx_of x t), run_tx digest (x_chain_id x) t (sender t) (Av x) (Bv x) with
    | (Ok r, (x', c')), Ok (V', B', r', n) =>
        r = r' /\ frame x x' /\ Av x' = V' /\ Bv x' = B' /\ c' = set_cycles (ctx_of x t) n
    | (Err e, (x', c')), Err e' => e = e' /\ frame x x' /\ c' = ctx_of x t
    | (Panic, _), Panic => True
    | _, _ => False
    end.

  Lemma consume_zero a limit :
    consume_cycles a (wrap64 0) limit
    = if limit <? cycles_table a then Err EOutOfCycles else Ok (wrap64 (cycles_table a)).
  Proof. destruct a; reflexivity. Qed.

  Lemma lookup_Av x a : ad_get (x_acc x) a = Av x !! a.
  Proof. apply ad_get_view. Qed.
  Lemma lookup_Bv x a : ad_get (x_bank x) a = Bv x !! a.
  Proof. apply ad_get_view. Qed.

  Lemma frame_set_acc x a v : frame x (set_acc x (ad_insert (x_acc x) a v)).
  Proof. constructor; reflexivity. Qed.
  Lemma frame_set_bank x a v : frame x (set_bank x (ad_insert (x_bank x) a v)).
  Proof. constructor; reflexivity. Qed.
  Lemma Av_set_acc x a v : Av (set_acc x (ad_insert (x_acc x) a v)) = <[a := v]> (Av x).
  Proof. apply view_insert. Qed.
  Lemma Bv_set_acc x a : Bv (set_acc x a) = Bv x.
  Proof. reflexivity. Qed.
  Lemma Bv_set_bank x a v : Bv (set_bank x (ad_insert (x_bank x) a v)) = <[a := v]> (Bv x).
  Proof. apply view_insert. Qed.
  Lemma Av_set_bank x a : Av (set_bank x a) = Av x.
  Proof. reflexivity. Qed.

  Ltac mred := unfold bind, ret, fail, panic, lift, ask_ctx, ask_exec, put_acc, put_bank, put_cycles; cbn [fst snd].

  Lemma ctx_caller x t : ic_caller (ctx_of x t) = sender t. Proof. reflexivity. Qed.
  Lemma ctx_used x t : ic_cycles_used (ctx_of x t) = wrap64 0. Proof. reflexivity. Qed.
  Lemma ctx_limit x t : ic_cycles_limit (ctx_of x t) = fee_cycle (rt_fee (st_raw t)). Proof. reflexivity. Qed.
  Lemma ctx_carry x t to carry : rt_action (st_raw t) = Transfer to carry ->
    ic_carrying (ctx_of x t) = Some carry.
  Proof. intros E. unfold ctx_of. cbn. rewrite E. reflexivity. Qed.
  Ltac sred := cbn [fst snd ok_or rbind map_err].

  Lemma dispatch_ok x t : dispatch_rel x t.
  Proof.
    unfold dispatch_rel, dispatch, run_tx.
    destruct (rt_action (st_raw t)) as [to carry|? ? ?|code ct|? ? ? ?] eqn:Ea; try (cbn; exact I).
    - unfold handle_transfer, get_asset, get_balance, get_account, transfer, sub_balance, add_balance,
        find_or_create, insert_account. mred.
      rewrite !(ctx_carry _ _ _ _ Ea). sred. rewrite lookup_Bv. sred.
      destruct (Bv x !! cr_asset_id carry) as [ast|] eqn:EB; sred;
        [|split; [reflexivity|split; [apply frame_refl|reflexivity]]].
      unfold move. rewrite ctx_caller, lookup_Av. sred.
      destruct (Av x !! sender t) as [acc|] eqn:EV; sred;
        [|split; [reflexivity|split; [apply frame_refl|reflexivity]]].
      rewrite (ctx_carry _ _ _ _ Ea). sred. rewrite ctx_caller, lookup_Av, EV. sred.
      destruct (account_sub acc (cr_asset_id carry) (cr_amount carry)) as [acc'|e|] eqn:ES; sred;
        [| split; [reflexivity|split; [apply frame_refl|reflexivity]] | cbn; exact I].
      rewrite !lookup_Av, !Av_set_acc.
      set (x1 := set_acc x (ad_insert (x_acc x) (sender t) acc')).
      set (dst := match <[sender t := acc']> (Av x) !! AUser to with Some a => a | None => _ end).
      set (x2 := set_acc x1 (ad_insert (x_acc x1) (AUser to) (account_add dst (cr_asset_id carry) (cr_amount carry)))).
      assert (Fr : frame x x2).
      { eapply frame_trans; [apply frame_set_acc|]. apply frame_set_acc. }
      assert (E2 : Av x2 = <[AUser to:=account_add dst (cr_asset_id carry) (cr_amount carry)]> (<[sender t:=acc']> (Av x))).
      { unfold x2. rewrite Av_set_acc. unfold x1. rewrite Av_set_acc. reflexivity. }
      rewrite ctx_used, ctx_limit, consume_zero. cbn [cycles_table]. change (10 * 21) with 210.
      destruct (fee_cycle (rt_fee (st_raw t)) <? 210) eqn:EL.
      { split; [reflexivity|]. split; [exact Fr|]. unfold ctx_of. rewrite Ea. reflexivity. }
      sred. rewrite lookup_Av. unfold Av at 1. fold (Av x2). rewrite E2.
      set (V' := <[AUser to:=_]> _) in *.
      assert (HS : exists a, V' !! sender t = Some a).
      { unfold V'. destruct (decide (AUser to = sender t)) as [->|Hne].
        - rewrite lookup_insert. eauto.
        - rewrite lookup_insert_ne, lookup_insert by assumption. eauto. }
      destruct HS as [a' HS]. rewrite HS. cbn [ok_or].
      rewrite user_addr_of_user. cbn [map_err].
      split.
      { unfold bal. rewrite HS. unfold Av in *. rewrite EV. reflexivity. }
      split; [exact Fr|]. split; [exact E2|]. split; [reflexivity|].
      unfold ctx_of. rewrite Ea. reflexivity.
    - unfold handle_deploy. destruct ct; try (cbn; exact I).
      unfold get_nonce, get_account, register. mred. rewrite ctx_caller, lookup_Av. sred.
      destruct (Av x !! sender t) as [acc|] eqn:EV; sred;
        [|split; [reflexivity|split; [apply frame_refl|reflexivity]]].
      destruct (contract_from_code_spec digest code (account_nonce acc) CtAsset) as (c & Ec & _ & Ht).
      rewrite Ec. sred. rewrite Ht. rewrite decide_True by reflexivity.
      rewrite ad_contains_view. sred. change (view (x_bank x)) with (Bv x).
      destruct (Bv x !! asset_id_of digest (x_chain_id x) c) as [a0|] eqn:EB.
      { split; [reflexivity|split; [apply frame_refl|reflexivity]]. }
      sred. rewrite ctx_used, ctx_limit, consume_zero. cbn [cycles_table]. change (10 * 210) with 2100.
      destruct (fee_cycle (rt_fee (st_raw t)) <? 2100) eqn:EL.
      { split; [reflexivity|]. split; [apply frame_set_bank|]. unfold ctx_of. rewrite Ea. reflexivity. }
      split; [reflexivity|]. split; [apply frame_set_bank|]. split; [reflexivity|].
      split; [apply Bv_set_bank|]. unfold ctx_of. rewrite Ea. reflexivity.
  Qed.

  (** ** stash, revert, commit *)
  Lemma stash_all_spec o x : order_ok o ->
    Av (stash_all o x) = Av x /\ Ad (stash_all o x) = Av x /\
    Bv (stash_all o x) = Bv x /\ Bd (stash_all o x) = Bv x /\
    x_chain_id (stash_all o x) = x_chain_id x /\ x_price (stash_all o x) = x_price x /\
    x_epoch_id (stash_all o x) = x_epoch_id x /\ x_coinbase (stash_all o x) = x_coinbase x /\
    x_trie (stash_all o x) = x_trie x /\ x_db (stash_all o x) = x_db x /\
    ad_trie (x_acc (stash_all o x)) = ad_trie (x_acc x) /\
    ad_trie (x_bank (stash_all o x)) = ad_trie (x_bank x).
  Proof.
    intros [H1 H2]. unfold stash_all, Av, Ad, Bv, Bd.
    destruct (io_bank_first o); cbn; repeat split;
      first [apply view_stash | apply durable_stash]; auto.
  Qed.

  Lemma revert_all_spec o x :
    Av (revert_all o x) = Ad x /\ Ad (revert_all o x) = Ad x /\
    Bv (revert_all o x) = Bd x /\ Bd (revert_all o x) = Bd x /\
    x_chain_id (revert_all o x) = x_chain_id x /\ x_price (revert_all o x) = x_price x /\
    x_epoch_id (revert_all o x) = x_epoch_id x /\ x_coinbase (revert_all o x) = x_coinbase x /\
    x_trie (revert_all o x) = x_trie x /\ x_db (revert_all o x) = x_db x /\
    ad_trie (x_acc (revert_all o x)) = ad_trie (x_acc x) /\
    ad_trie (x_bank (revert_all o x)) = ad_trie (x_bank x).
  Proof.
    unfold revert_all, Av, Ad, Bv, Bd.
    destruct (io_bank_first o); cbn; repeat split; apply view_revert.
  Qed.

  (** ** One transaction of a block *)
  (** The fields that no transaction touches. *)
  Record same_env (x y : executor) : Prop := MkEnv {
    se_chain : x_chain_id y = x_chain_id x;
    se_epoch : x_epoch_id y = x_epoch_id x;
    se_price : x_price y = x_price x;
    se_coinbase : x_coinbase y = x_coinbase x;
    se_trie : x_trie y = x_trie x;
    se_db : x_db y = x_db x;
    se_atrie : ad_trie (x_acc y) = ad_trie (x_acc x);
    se_btrie : ad_trie (x_bank y) = ad_trie (x_bank x) }.
  Lemma same_env_refl x : same_env x x.
  Proof. constructor; reflexivity. Qed.
  Lemma same_env_trans x y z : same_env x y -> same_env y z -> same_env x z.
  Proof. intros [] []; constructor; congruence. Qed.
  Lemma frame_env x y : frame x y -> same_env x y.
  Proof. intros []; constructor; assumption. Qed.

  (** Between transactions the bank has an empty cache. *)
  Definition ledger_of (x : executor) : ledger := MkLedger (Av x) (Ad x) (Bv x).
  Definition settled (x : executor) : Prop := Bv x = Bd x.

  Definition result_of (out : res exec_err receipt_result) : receipt_result :=
    match out with Ok r => r | Err e => RFail (show e) (lit [] eq_refl) | Panic => RFail (lit [] eq_refl) (lit [] eq_refl) end.

  Definition receipt_of (x : executor) (t : signed_tx) (out : res exec_err receipt_result) (n : u64) : receipt :=
    MkReceipt (hash_from_empty digest) (x_epoch_id x) (st_tx_hash t)
      (MkFee (fee_asset_id (rt_fee (st_raw t))) (wrap64 (n * x_price x))) (result_of out).

  Definition exec_tx_rel o x t : Prop :=
    match exec_tx digest show o x t, ledger_tx digest (x_chain_id x) (ledger_of x) t (sender t) with
    | Ok (r, x'), Ok (out, n, L') =>
        r = receipt_of x t out n /\ ledger_of x' = L' /\ settled x' /\ same_env x x'
    | Err e, Err e' => e = e'
    | Panic, Panic => True
    | _, _ => False
    end.

  Lemma inc_nonce_spec x c :
    inc_nonce (x, c) =
    match Av x !! ic_caller c with
    | None => (Err (EAccountNotFound (ic_caller c)), (x, c))
    | Some acc => (Ok tt, (set_acc x (ad_insert (x_acc x) (ic_caller c) (account_inc acc)), c))
    end.
  Proof.
    unfold inc_nonce, get_account, insert_account. mred. rewrite lookup_Av.
    destruct (Av x !! ic_caller c); reflexivity.
  Qed.

  Lemma exec_tx_ok o x t : order_ok o -> settled x -> exec_tx_rel o x t.
  Proof.
    intros Ho Hset. unfold exec_tx_rel, exec_tx, ledger_tx. rewrite gen_invoke_ctx_ok. cbn [rbind].
    pose proof (dispatch_ok x t) as Hd. unfold dispatch_rel in Hd. cbn [ledger_of lg_view lg_assets lg_durable].
    destruct (dispatch digest t (x, ctx_of x t)) as [[r|e|] [x' c']];
      destruct (run_tx digest (x_chain_id x) t (sender t) (Av x) (Bv x)) as [[[[V' B'] r'] n]|e'|];
      try contradiction; cbn [rbind].
    - destruct Hd as (-> & Fr & HV & HB & ->).
      destruct (stash_all_spec o x' Ho) as (S1 & S2 & S3 & S4 & S5 & S6 & S7 & S8 & S9 & S10 & S11 & S12).
      rewrite inc_nonce_spec. rewrite S1, HV.
      change (ic_caller (set_cycles (ctx_of x t) n)) with (sender t).
      destruct (V' !! sender t) as [acc|] eqn:EV; cbn [rbind]; [|reflexivity].
      pose proof (frame_env _ _ Fr) as [].
      split; [|split; [|split]].
      + unfold receipt_of. cbn -[revert_all stash_all]. rewrite S6, se_price0. reflexivity.
      + unfold ledger_of. rewrite Av_set_acc, S1, HV. f_equal.
        * change (Ad (stash_all o x') = V'). rewrite S2. exact HV.
        * change (Bv (stash_all o x') = B'). rewrite S3. exact HB.
      + change (Bv (stash_all o x') = Bd (stash_all o x')). rewrite S3, S4. reflexivity.
      + constructor; cbn -[revert_all stash_all]; congruence.
    - destruct Hd as (-> & Fr & ->).
      destruct (revert_all_spec o x') as (S1 & S2 & S3 & S4 & S5 & S6 & S7 & S8 & S9 & S10 & S11 & S12).
      rewrite inc_nonce_spec. rewrite S1, (frame_Ad _ _ Fr).
      change (ic_caller (ctx_of x t)) with (sender t).
      destruct (Ad x !! sender t) as [acc|] eqn:EV; cbn [rbind]; [|reflexivity].
      pose proof (frame_env _ _ Fr) as [].
      split; [|split; [|split]].
      + reflexivity.
      + unfold ledger_of. rewrite Av_set_acc, S1, (frame_Ad _ _ Fr). f_equal.
        * change (Ad (revert_all o x') = Ad x). rewrite S2. apply frame_Ad, Fr.
        * change (Bv (revert_all o x') = Bv x). rewrite S3, (frame_Bd _ _ Fr). symmetry. exact Hset.
      + change (Bv (revert_all o x') = Bd (revert_all o x')). rewrite S3, S4. reflexivity.
      + constructor; cbn -[revert_all stash_all]; congruence.
    - exact I.
  Qed.

  (** ** The block loop *)
  Fixpoint ledger_txs (chain_id : hash) (L : ledger) (ts : list signed_tx)
    : res exec_err (list (res exec_err receipt_result * u64) * ledger) :=
    match ts with
    | [] => Ok ([], L)
    | t :: ts' =>
        let? (out, n, L1) := ledger_tx digest chain_id L t (sender t) in
        let? (outs, L2) := ledger_txs chain_id L1 ts' in
        Ok ((out, n) :: outs, L2)
    end.

  Definition receipts_of (x : executor) (ts : list signed_tx) (outs : list (res exec_err receipt_result * u64)) :=
    zip_with (fun t o => receipt_of x t o.1 o.2) ts outs.

  Lemma receipt_of_env x y t out n : same_env x y -> receipt_of y t out n = receipt_of x t out n.
  Proof. intros []. unfold receipt_of. congruence. Qed.
  Lemma receipts_of_env x y ts outs : same_env x y -> receipts_of y ts outs = receipts_of x ts outs.
  Proof.
    intros E. unfold receipts_of. revert outs. induction ts as [|t ts IH]; intros [|o outs]; cbn; try reflexivity.
    rewrite (receipt_of_env _ _ _ _ _ E), IH. reflexivity.
  Qed.

  Lemma exec_txs_ok os x ts :
    (forall n, order_ok (os n)) -> settled x ->
    match exec_txs digest show os x ts, ledger_txs (x_chain_id x) (ledger_of x) ts with
    | Ok (rs, x'), Ok (outs, L') =>
        rs = receipts_of x ts outs /\ length outs = length ts /\
        ledger_of x' = L' /\ settled x' /\ same_env x x'
    | Err e, Err e' => e = e'
    | Panic, Panic => True
    | _, _ => False
    end.
  Proof.
    revert os x. induction ts as [|t ts IH]; intros os x Hos Hset; cbn [exec_txs ledger_txs].
    - split; [reflexivity|]. split; [reflexivity|]. split; [reflexivity|]. split; [exact Hset|apply same_env_refl].
    - pose proof (exec_tx_ok (os O) x t (Hos O) Hset) as H1. unfold exec_tx_rel in H1.
      destruct (exec_tx digest show (os 0%nat) x t) as [[r x1]|e|];
        destruct (ledger_tx digest (x_chain_id x) (ledger_of x) t (sender t)) as [[[out n] L1]|e'|];
        try contradiction; cbn [rbind]; [|exact H1|exact I].
      destruct H1 as (-> & HL & Hs1 & Henv).
      specialize (IH (fun n => os (S n)) x1 ltac:(intros; apply Hos) Hs1).
      rewrite HL, (se_chain _ _ Henv) in IH.
      destruct (exec_txs digest show _ x1 ts) as [[rs x2]|e|];
        destruct (ledger_txs (x_chain_id x) L1 ts) as [[outs L2]|e'|];
        try contradiction; cbn [rbind]; [|exact IH|exact I].
      destruct IH as (-> & Hlen & HL2 & Hs2 & Henv2).
      split; [|split; [|split; [|split]]]; auto.
      + rewrite (receipts_of_env _ _ _ _ Henv). reflexivity.
      + cbn. congruence.
      + eapply same_env_trans; eauto.
  Qed.

  (** ** Reward and commit *)
  Lemma pay_coinbase_spec x fees :
    let y := pay_coinbase digest x fees in
    Ad y = Ad x /\ Bd y = Bd x /\ Bv y = Bv x /\ same_env x y.
  Proof.
    cbn. unfold pay_coinbase. revert x. induction fees as [|f fees IH]; intros x; cbn [fold_left].
    - repeat split; reflexivity.
    - destruct (IH (set_acc x (ad_insert (x_acc x) (x_coinbase x)
        (account_add match ad_get (x_acc x) (x_coinbase x) with Some acc => acc | None => new_account digest (x_coinbase x) end
           (fee_asset_id f) (fee_cycle f))))) as (H1 & H2 & H3 & H4).
      rewrite H1, H2, H3. repeat split; try reflexivity;
        destruct H4; assumption.
  Qed.

  Definition top_after (x : executor) (accs : accounts) (asts : assets) : gmap bytes bytes :=
    <[ACCOUNT_CONTRACT_ADDRESS := sbytes (root_of (enc_map account_schema accs))]>
    (<[BANK_CONTRACT_ADDRESS := sbytes (root_of (enc_map asset_schema asts))]> (x_trie x)).

  Lemma contract_addresses_differ : ACCOUNT_CONTRACT_ADDRESS <> BANK_CONTRACT_ADDRESS.
  Proof. discriminate. Qed.

  Lemma commit_spec o x root x' : order_ok o -> commit root_of o x = (root, x') ->
    root = root_of (top_after x (Ad x) (Bd x)) /\
    committed x' = Ad x /\ committed_assets x' = Bd x /\
    Av x' = Av x /\ Bv x' = Bv x /\
    ad_stash (x_acc x') = ∅ /\ ad_stash (x_bank x') = ∅ /\
    ad_cache (x_acc x') = ad_cache (x_acc x) /\ ad_cache (x_bank x') = ad_cache (x_bank x) /\
    x_trie x' = top_after x (Ad x) (Bd x) /\
    x_chain_id x' = x_chain_id x /\ x_epoch_id x' = x_epoch_id x /\ x_price x' = x_price x /\
    x_coinbase x' = x_coinbase x.
  Proof.
    intros [H1 H2]. unfold commit, commit_acc, commit_bank, trie_commit, top_after, committed, committed_assets, Av, Bv, Ad, Bd.
    destruct (io_bank_first o); cbn; intros [= <- <-]; cbn;
      rewrite !insert_all_perm with (m := ad_stash (x_acc x)) by apply H1;
      rewrite !insert_all_perm with (m := ad_stash (x_bank x)) by apply H2.
    all: assert (Hc : forall (m : gmap bytes bytes) u v, <[BANK_CONTRACT_ADDRESS := u]> (<[ACCOUNT_CONTRACT_ADDRESS := v]> m)
           = <[ACCOUNT_CONTRACT_ADDRESS := v]> (<[BANK_CONTRACT_ADDRESS := u]> m))
           by (intros; apply insert_commute; discriminate).
    all: rewrite ?Hc; repeat split; try reflexivity;
      unfold view, durable; cbn; rewrite (left_id_L ∅ (∪)); reflexivity.
  Qed.
End Facts.
