(** * More proofs of executor properties: single transactions, determinism,
    fee aggregation, failures of exec. *)
From Verif Require Import Base BaseFacts Hex Types Rlp RlpFacts FixedCodec FixedCodecFacts CodecProps
  StateAdapter StateAdapterFacts Executor ExecSpec ExecutorFacts ExecProps ExecBlock.
From Coq Require Import Permutation.
Local Open Scope N_scope.

Section More.
  Context (digest : bytes -> hash) (root_of : gmap bytes bytes -> hash)
          (show : exec_err -> rstring).
  Notation sender := (sender digest).
  Notation ledger_txs := (ledger_txs digest).
  Notation exec_tx := (exec_tx digest show).
  Notation exec_txs := (exec_txs digest show).
  Notation exec := (exec digest root_of show).
  Notation receipts_of := (receipts_of digest show).

  Lemma mid_inv x : midblock digest show x -> settled x /\ led_inv (ledger_of x).
  Proof.
    intros (x0 & os & ts & rs & Hf & Hwf & Hos & He).
    destruct (fresh_ledger x0 Hf) as [HL Hset].
    pose proof (exec_txs_ok digest show os x0 ts Hos Hset) as H. rewrite He, HL in H.
    destruct (ledger_txs (x_chain_id x0) (start x0) ts) as [[outs L]|e|] eqn:El; try contradiction.
    destruct H as (_ & _ & -> & Hs & _). split; [exact Hs|].
    eapply ledger_txs_inv; [apply start_inv, Hwf|exact El].
  Qed.

  Lemma fresh_mid x : fresh x -> wf_accounts (committed x) -> midblock digest show x.
  Proof.
    intros Hf Hwf. exists x, (fun _ => canon_order), [], []. split; [exact Hf|]. split; [exact Hwf|].
    split; [intros _; split; reflexivity|reflexivity].
  Qed.

  Lemma visible_bal x a id : visible_balance x a id = bal (Av x) a id.
  Proof.
    unfold visible_balance, exec_get_balance, bal. rewrite lookup_Av. destruct (Av x !! a); reflexivity.
  Qed.

  Lemma exec_tx_step o x t r x' :
    order_ok o -> midblock digest show x -> exec_tx o x t = Ok (r, x') ->
    exists out n L', ledger_tx digest (x_chain_id x) (ledger_of x) t (sender t) = Ok (out, n, L') /\
      r = receipt_of digest show x t out n /\ ledger_of x' = L' /\ settled x' /\ same_env x x'.
  Proof.
    intros Ho Hm He. destruct (mid_inv x Hm) as [Hs Hi].
    pose proof (exec_tx_ok digest show o x t Ho Hs) as H. unfold exec_tx_rel in H. rewrite He in H.
    destruct (ledger_tx digest (x_chain_id x) (ledger_of x) t (sender t)) as [[[out n] L']|e|]; try contradiction.
    exists out, n, L'. tauto.
  Qed.

  Lemma out_good_of L t chain out n L' :
    led_inv L -> ledger_tx digest chain L t (sender t) = Ok (out, n, L') -> out_good (out, n).
  Proof.
    intros Hi E. destruct (ledger_tx_spec digest _ _ _ _ _ _ Hi E) as (_ & _ & _ & _ & _ & _ & _ & _ & Ho & _).
    unfold out_good; cbn. destruct out; [apply Ho|exact I|exact Ho].
  Qed.

  Lemma succ_out x t out n : out_good (out, n) -> succeeded (receipt_of digest show x t out n) = out_ok out.
  Proof. exact (succeeded_out digest show x t (out, n)). Qed.

  (** C11, one transaction: exactly when it succeeds *)
  Lemma transfer_succeeds_iff o x t r x' receiver c from :
    order_ok o -> midblock digest show x -> rt_action (st_raw t) = Transfer receiver c ->
    is_sender digest t from ->
    exec_tx o x t = Ok (r, x') ->
    succeeded r = true <->
      is_Some (ad_get (x_bank x) (cr_asset_id c)) /\
      (exists u i, ad_get (x_acc x) from = Some (AccUser u) /\ uac_assets u !! cr_asset_id c = Some i /\
                   cr_amount c <= ai_balance i) /\
      210 <= fee_cycle (rt_fee (st_raw t)).
  Proof.
    intros Ho Hm Ha Hfrom He. apply sender_unique in Hfrom as ->.
    destruct (exec_tx_step o x t r x' Ho Hm He) as (out & n & L' & E & -> & HL & Hs' & Henv).
    destruct (mid_inv x Hm) as [Hs Hi].
    rewrite (succ_out x t out n (out_good_of _ _ _ _ _ _ Hi E)).
    pose proof (inv_view_wf _ Hi) as Hwf. rewrite lookup_Av, lookup_Bv. cbn [ledger_of lg_view] in Hwf.
    unfold ledger_tx in E. cbn [ledger_of lg_view lg_assets lg_durable] in E.
    unfold run_tx in E. rewrite Ha in E.
    destruct (sender_user digest t) as [us Eus].
    pose proof (move_ok_iff digest (Av x) (sender t) (AUser receiver) (cr_asset_id c) (cr_amount c) us Hwf Eus) as Hmv.
    destruct (Bv x !! cr_asset_id c) as [ast|] eqn:EB.
    2:{ cbn [rbind] in E. destruct (Ad x !! sender t); [|discriminate]. injection E as <- <- <-.
        split; [discriminate|]. intros ([? ?] & _). discriminate. }
    destruct (move digest (Av x) (sender t) (AUser receiver) (cr_asset_id c) (cr_amount c)) as [V'|e|] eqn:Em; cbn [rbind] in E.
    - destruct (fee_cycle (rt_fee (st_raw t)) <? 210) eqn:EL; cbn [rbind] in E.
      + destruct (Ad x !! sender t); [|discriminate]. injection E as <- <- <-.
        apply N.ltb_lt in EL. split; [discriminate|]. intros (_ & _ & ?). lia.
      + destruct (V' !! sender t); [|discriminate]. injection E as <- <- <-. apply N.ltb_ge in EL.
        split; [intros _|reflexivity]. split; [eauto|]. split; [|exact EL]. apply Hmv. eauto.
    - destruct (Ad x !! sender t); [|discriminate]. injection E as <- <- <-.
      split; [discriminate|]. intros (_ & Hx & _). apply Hmv in Hx as [? ?]. discriminate.
    - discriminate.
  Qed.

  (** C11, one transaction: what success does *)
  Lemma transfer_effect o x t r x' receiver c from :
    order_ok o -> midblock digest show x -> rt_action (st_raw t) = Transfer receiver c ->
    is_sender digest t from -> exec_tx o x t = Ok (r, x') -> succeeded r = true ->
    cr_amount c <= visible_balance x from (cr_asset_id c) /\
    (forall a id, visible_balance x' a id + (if decide (a = from /\ id = cr_asset_id c) then cr_amount c else 0)
        = visible_balance x a id + (if decide (a = AUser receiver /\ id = cr_asset_id c) then cr_amount c else 0)) /\
    (forall a, a <> from -> a <> AUser receiver -> ad_get (x_acc x') a = ad_get (x_acc x) a) /\
    (forall id, ad_get (x_bank x') id = ad_get (x_bank x) id) /\
    rc_result r = RTransfer receiver (cr_asset_id c)
      (visible_balance x from (cr_asset_id c)) (visible_balance x' from (cr_asset_id c)).
  Proof.
    intros Ho Hm Ha Hfrom He Hsu. apply sender_unique in Hfrom as ->.
    destruct (exec_tx_step o x t r x' Ho Hm He) as (out & n & L' & E & -> & HL & Hs' & Henv).
    destruct (mid_inv x Hm) as [Hs Hi].
    rewrite (succ_out x t out n (out_good_of _ _ _ _ _ _ Hi E)) in Hsu. 
    pose proof (inv_view_wf _ Hi) as Hwf.
    destruct (ledger_tx_spec digest _ _ _ _ _ _ Hi E) as (Hi' & _ & _ & _ & _ & _ & _ & _ & Hout & (acc & Hacc & Hview)).
    destruct out as [res|e|]; try discriminate. destruct Hout as [Hrun _].
    destruct (run_tx_spec digest _ _ _ _ _ _ _ _ Hwf Hrun) as (Hb & _ & Hother & _).
    rewrite <- HL in *. cbn [ledger_of lg_view lg_durable lg_assets] in *.
    unfold run_tx in Hrun. rewrite Ha in Hrun.
    destruct (Bv x !! cr_asset_id c) as [ast|] eqn:EB; [|discriminate].
    destruct (move digest (Av x) (sender t) (AUser receiver) (cr_asset_id c) (cr_amount c)) as [V'|e|] eqn:Em;
      cbn [rbind] in Hrun; try discriminate.
    destruct (fee_cycle (rt_fee (st_raw t)) <? 210) eqn:EL; [discriminate|].
    injection Hrun as EV EBx <- <-. subst V'.
    destruct (move_spec digest _ _ _ _ _ _ Hwf (sender_user digest t) Em) as ((u & i & Hu & Hi1 & Hi2) & _).
    assert (HB : forall a id, bal (Av x') a id = bal (Ad x') a id).
    { intros a id. rewrite Hview, bal_insert. destruct (decide (a = sender t)) as [->|]; [|reflexivity].
      rewrite inc_balance. unfold bal. rewrite Hacc. reflexivity. }
    split.
    { rewrite visible_bal. unfold bal. rewrite Hu. cbn. rewrite Hi1. exact Hi2. }
    split.
    { intros a id. rewrite !visible_bal, HB. specialize (Hb a id). unfold debit, credit in Hb. rewrite Ha in Hb. exact Hb. }
    split.
    { intros a H1 H2. rewrite !lookup_Av, Hview, lookup_insert_ne by congruence. apply Hother; [exact H1|].
      unfold is_receiver. rewrite Ha. exact H2. }
    split.
    { intros id. rewrite !lookup_Bv. congruence. }
    cbn [receipt_of rc_result result_of]. rewrite !visible_bal, HB. reflexivity.
  Qed.

  (** C12: a failed transaction *)
  Lemma failed_tx o x t r x' :
    order_ok o -> midblock digest show x -> exec_tx o x t = Ok (r, x') -> succeeded r = false ->
    (forall a id, visible_balance x' a id = visible_balance x a id) /\
    (forall id, ad_get (x_bank x') id = ad_get (x_bank x) id) /\
    u64v (fee_cycle (rc_cycles_used r)) = 0 /\
    (exists e, rc_result r = RFail (show e) (lit [] eq_refl)).
  Proof.
    intros Ho Hm He Hsu.
    destruct (exec_tx_step o x t r x' Ho Hm He) as (out & n & L' & E & -> & HL & Hs' & Henv).
    destruct (mid_inv x Hm) as [Hs Hi].
    rewrite (succ_out x t out n (out_good_of _ _ _ _ _ _ Hi E)) in Hsu. 
    destruct (ledger_tx_spec digest _ _ _ _ _ _ Hi E) as (Hi' & _ & _ & _ & Hb & _ & _ & _ & Hout & _).
    destruct out as [res|e|]; [discriminate| |contradiction].
    destruct Hout as (_ & -> & HD & HA). rewrite <- HL in *. cbn [ledger_of lg_assets] in HA.
    split.
    { intros a id. rewrite !visible_bal.
      change (bal (lg_view (ledger_of x')) a id = bal (lg_view (ledger_of x)) a id).
      rewrite !inv_view_bal by assumption. congruence. }
    split; [intros id; rewrite !lookup_Bv; congruence|].
    split; [reflexivity|]. exists e. reflexivity.
  Qed.

  (** C12, block level: appending a transaction that fails commits the same state *)
  Lemma failed_last os os' x ts t resp x1 resp' x1' :
    (forall n, order_ok (os n)) -> (forall n, order_ok (os' n)) ->
    fresh x -> wf_accounts (committed x) ->
    exec os x ts = Ok (resp, x1) -> exec os' x (ts ++ [t]) = Ok (resp', x1') ->
    (exists r, last (er_receipts resp') = Some r /\ succeeded r = false) ->
    committed x1' = committed x1 /\ committed_assets x1' = committed_assets x1 /\
    er_state_root resp' = er_state_root resp.
  Proof.
    intros Hos Hos' Hf Hwf E1 E2 (r & Hr & Hsu).
    pose proof (exec_spec digest root_of show os x ts Hos Hf) as H1. rewrite E1 in H1.
    pose proof (exec_spec digest root_of show os' x (ts ++ [t]) Hos' Hf) as H2. rewrite E2 in H2.
    rewrite ledger_txs_app in H2.
    destruct (ledger_txs (x_chain_id x) (start x) ts) as [[outs L]|e|] eqn:El; try contradiction.
    cbn [rbind ExecutorFacts.ledger_txs] in H2.
    destruct (ledger_tx digest (x_chain_id x) L t (sender t)) as [[[out n] L']|e|] eqn:Et; cbn [rbind] in H2; try contradiction.
    assert (Hi : led_inv L) by (eapply ledger_txs_inv; [apply start_inv, Hwf|exact El]).
    destruct H1 as (Hl1 & C1 & A1 & R1 & _). destruct H2 as (Hl2 & C2 & A2 & R2 & Hrc & _).
    rewrite Hrc in Hr. unfold ExecutorFacts.receipts_of in Hr.
    rewrite zip_with_app in Hr by (symmetry; exact Hl1). cbn [zip_with] in Hr.
    rewrite map_app in Hr. cbn [map] in Hr. rewrite last_snoc in Hr. injection Hr as <-.
    change (succeeded (receipt_of digest show x t out n) = false) in Hsu.
    rewrite (succ_out x t out n (out_good_of _ _ _ _ _ _ Hi Et)) in Hsu. 
    destruct (ledger_tx_spec digest _ _ _ _ _ _ Hi Et) as (_ & _ & _ & _ & _ & _ & _ & _ & Hout & _).
    destruct out as [res|e|]; [discriminate| |contradiction]. destruct Hout as (_ & _ & HD & HA).
    rewrite C1, C2, A1, A2, R1, R2, HD, HA. auto.
  Qed.

  (** C13/C14 *)
  Lemma exec_receipts os x ts resp x' :
    (forall n, order_ok (os n)) -> fresh x -> wf_accounts (committed x) ->
    exec os x ts = Ok (resp, x') ->
    length (er_receipts resp) = length ts /\
    (forall i t r, ts !! i = Some t -> er_receipts resp !! i = Some r ->
       rc_tx_hash r = st_tx_hash t /\ rc_epoch_id r = x_epoch_id x /\
       rc_state_root r = er_state_root resp /\
       fee_asset_id (rc_cycles_used r) = fee_asset_id (rt_fee (st_raw t)) /\
       exists n : N, n <= fee_cycle (rt_fee (st_raw t)) /\
         u64v (fee_cycle (rc_cycles_used r)) = (n * x_price x) mod two64 /\
         match rc_result r with
         | RTransfer to a _ _ => n = 210 /\ (exists c, rt_action (st_raw t) = Transfer to c /\ cr_asset_id c = a)
         | RDeploy _ ty => n = 2100 /\ ty = CtAsset /\ (exists code, rt_action (st_raw t) = Deploy code CtAsset)
         | RFail _ _ => n = 0
         | _ => False
         end).
  Proof.
    intros Hos Hf Hwf He. pose proof (exec_spec digest root_of show os x ts Hos Hf) as H. rewrite He in H.
    destruct (ledger_txs (x_chain_id x) (start x) ts) as [[outs L]|e'|] eqn:El; try contradiction.
    destruct H as (Hlen & _ & _ & Hroot & Hr & _).
    split.
    { rewrite Hr, map_length. unfold ExecutorFacts.receipts_of. rewrite zip_with_length. lia. }
    intros i t r Ht Hri. rewrite Hr in Hri. rewrite list_lookup_fmap in Hri.
    unfold ExecutorFacts.receipts_of in Hri.
    destruct (zip_with _ ts outs !! i) as [r0|] eqn:Ez; [|discriminate]. injection Hri as <-.
    apply lookup_zip_with_Some in Ez as (t' & o & -> & Ht' & Ho). rewrite Ht in Ht'. injection Ht' as <-.
    destruct (ledger_txs_out digest _ _ _ _ _ _ _ _ (start_inv x Hwf) El Ht Ho) as [Hn Hm].
    split; [reflexivity|]. split; [reflexivity|]. split; [reflexivity|]. split; [reflexivity|].
    exists (u64v o.2). split; [exact Hn|]. split; [reflexivity|].
    destruct o as [[res|e|] n]; cbn in *; [|exact Hm|contradiction]. destruct res; try contradiction; exact Hm.
  Qed.

  (** C20 *)
  Lemma exec_panic_iff os x ts :
    (forall n, order_ok (os n)) -> fresh x -> wf_accounts (committed x) ->
    exec os x ts = Panic <->
    exists ts1 t ts2 resp1 x1, ts = ts1 ++ t :: ts2 /\ exec os x ts1 = Ok (resp1, x1) /\ ~ supported t.
  Proof.
    intros Hos Hf Hwf. pose proof (exec_spec digest root_of show os x ts Hos Hf) as H.
    destruct (ledger_txs_fail digest show (x_chain_id x) (start x) ts (start_inv x Hwf)) as [F _].
    split.
    - intros E. rewrite E in H.
      destruct (ledger_txs (x_chain_id x) (start x) ts) as [[outs L]|e'|] eqn:El; try contradiction.
      destruct (proj1 F eq_refl) as (ts1 & t & ts2 & outs & L1 & -> & E1 & Hs).
      pose proof (exec_spec digest root_of show os x ts1 Hos Hf) as H1. rewrite E1 in H1.
      destruct (exec os x ts1) as [[resp1 x1]|e|] eqn:Ex; try contradiction.
      exists ts1, t, ts2, resp1, x1. auto.
    - intros (ts1 & t & ts2 & resp1 & x1 & -> & E1 & Hs).
      pose proof (exec_spec digest root_of show os x ts1 Hos Hf) as H1. rewrite E1 in H1.
      destruct (ledger_txs (x_chain_id x) (start x) ts1) as [[outs L]|e'|] eqn:El; try contradiction.
      rewrite (proj2 F) in H by (exists ts1, t, ts2, outs, L; auto).
      destruct (exec os x (ts1 ++ t :: ts2)) as [[? ?]|?|]; try contradiction. reflexivity.
  Qed.

  Lemma exec_err_iff os x ts e :
    (forall n, order_ok (os n)) -> fresh x -> wf_accounts (committed x) ->
    exec os x ts = Err e <->
    exists ts1 t ts2 resp1 x1 a, ts = ts1 ++ t :: ts2 /\ exec os x ts1 = Ok (resp1, x1) /\ supported t /\
      is_sender digest t a /\ committed x1 !! a = None /\ e = EAccountNotFound a.
  Proof.
    intros Hos Hf Hwf. pose proof (exec_spec digest root_of show os x ts Hos Hf) as H.
    destruct (ledger_txs_fail digest show (x_chain_id x) (start x) ts (start_inv x Hwf)) as [_ F]. specialize (F e).
    split.
    - intros E. rewrite E in H.
      destruct (ledger_txs (x_chain_id x) (start x) ts) as [[outs L]|e'|] eqn:El; try contradiction. subst e'.
      destruct (proj1 F eq_refl) as (ts1 & t & ts2 & outs & L1 & -> & E1 & Hs & Hn & ->).
      pose proof (exec_spec digest root_of show os x ts1 Hos Hf) as H1. rewrite E1 in H1.
      destruct (exec os x ts1) as [[resp1 x1]|e|] eqn:Ex; try contradiction. destruct H1 as (_ & C1 & _).
      exists ts1, t, ts2, resp1, x1, (sender t). repeat split; auto; [apply sender_spec|congruence].
    - intros (ts1 & t & ts2 & resp1 & x1 & a & -> & E1 & Hs & Ha & Hn & ->). apply sender_unique in Ha as ->.
      pose proof (exec_spec digest root_of show os x ts1 Hos Hf) as H1. rewrite E1 in H1.
      destruct (ledger_txs (x_chain_id x) (start x) ts1) as [[outs L]|e'|] eqn:El; try contradiction.
      destruct H1 as (_ & C1 & _).
      rewrite (proj2 F) in H by (exists ts1, t, ts2, outs, L; rewrite <- C1; auto).
      destruct (exec os x (ts1 ++ t :: ts2)) as [[? ?]|?|]; try contradiction. subst. reflexivity.
  Qed.

  (** C20, sufficient condition *)
  Lemma exec_total_ok os x ts :
    (forall n, order_ok (os n)) -> fresh x -> wf_accounts (committed x) ->
    Forall (fun t => supported t /\ exists a, is_sender digest t a /\ is_Some (committed x !! a)) ts ->
    exists resp x', exec os x ts = Ok (resp, x').
  Proof.
    intros Hos Hf Hwf Hall. destruct (exec os x ts) as [[resp x']|e|] eqn:E; [eauto| |]; exfalso.
    - apply (exec_err_iff os x ts e Hos Hf Hwf) in E as (ts1 & t & ts2 & resp1 & x1 & a & -> & E1 & _ & Ha & Hn & _).
      apply Forall_app in Hall as [_ Hall]. apply Forall_cons in Hall as [(_ & a' & Ha' & Hin) _].
      apply sender_unique in Ha as ->. apply sender_unique in Ha' as ->.
      pose proof (exec_spec digest root_of show os x ts1 Hos Hf) as H1. rewrite E1 in H1.
      destruct (ledger_txs (x_chain_id x) (start x) ts1) as [[outs L]|e'|] eqn:El; try contradiction.
      destruct H1 as (_ & C1 & _).
      destruct (ledger_txs_spec digest show _ x _ _ _ _ (start_inv x Hwf) El) as (_ & _ & _ & _ & _ & Hd & _).
      specialize (Hd _ Hin). rewrite <- C1, Hn in Hd. destruct Hd; discriminate.
    - apply (exec_panic_iff os x ts Hos Hf Hwf) in E as (ts1 & t & ts2 & resp1 & x1 & -> & E1 & Hs).
      apply Forall_app in Hall as [_ Hall]. apply Forall_cons in Hall as [(Hs' & _) _]. contradiction.
  Qed.

  (** C17 *)
  Lemma exec_assets_kept os x ts resp x' id ast :
    (forall n, order_ok (os n)) -> fresh x -> wf_accounts (committed x) ->
    exec os x ts = Ok (resp, x') ->
    committed_assets x !! id = Some ast -> committed_assets x' !! id = Some ast.
  Proof.
    intros Hos Hf Hwf He. pose proof (exec_spec digest root_of show os x ts Hos Hf) as H. rewrite He in H.
    destruct (ledger_txs (x_chain_id x) (start x) ts) as [[outs L]|e'|] eqn:El; try contradiction.
    destruct H as (_ & _ & -> & _).
    destruct (ledger_txs_spec digest show _ x _ _ _ _ (start_inv x Hwf) El) as (_ & _ & _ & _ & _ & _ & Ha & _). apply Ha.
  Qed.

  Lemma run_tx_assets chain t V B V' B' r n :
    run_tx digest chain t (sender t) V B = Ok (V', B', r, n) ->
    match r with
    | RDeploy c _ => B !! digest (sbytes chain ++ ca c) = None /\
                     B' = <[digest (sbytes chain ++ ca c) := deployed_asset digest chain c]> B
    | _ => B' = B
    end.
  Proof.
    unfold run_tx. destruct (rt_action (st_raw t)) as [to carry|? ? ?|code ct|? ? ? ?]; try discriminate.
    - destruct (B !! cr_asset_id carry); [|discriminate]. destruct (move _ _ _ _ _ _); cbn [rbind]; try discriminate.
      destruct (_ <? 210); [discriminate|]. intros [= <- <- <- <-]. reflexivity.
    - destruct ct; try discriminate. destruct (V !! sender t) as [acc|]; [|discriminate].
      destruct (contract_from_code_spec digest code (account_nonce acc) CtAsset) as (c & Ec & _ & _). rewrite Ec. cbn [map_err rbind].
      destruct (B !! asset_id_of digest chain c) eqn:EB; [discriminate|]. destruct (_ <? 2100); [discriminate|].
      intros [= <- <- <- <-]. split; [exact EB|reflexivity].
  Qed.

  Lemma ledger_txs_assets chain L ts outs L' :
    led_inv L -> ledger_txs chain L ts = Ok (outs, L') ->
    (forall id ast, lg_assets L' !! id = Some ast -> lg_assets L !! id = Some ast \/
       exists (i : nat) c ty n, outs !! i = Some (Ok (RDeploy c ty), n) /\ id = digest (sbytes chain ++ ca c) /\
                     ast = deployed_asset digest chain c) /\
    (forall (i : nat) c ty n, outs !! i = Some (Ok (RDeploy c ty), n) ->
       lg_assets L !! digest (sbytes chain ++ ca c) = None /\
       lg_assets L' !! digest (sbytes chain ++ ca c) = Some (deployed_asset digest chain c)).
  Proof.
    revert L outs. induction ts as [|t ts IH]; intros L outs Hinv Hl; cbn [ExecutorFacts.ledger_txs] in Hl.
    - injection Hl as <- <-. split; [auto|]. intros i c ty n Hi. rewrite lookup_nil in Hi. discriminate.
    - destruct (ledger_tx digest chain L t (sender t)) as [[[out n] L1]|e|] eqn:E1; cbn [rbind] in Hl; try discriminate.
      destruct (ledger_txs chain L1 ts) as [[outs1 L2]|e|] eqn:E2; cbn [rbind] in Hl; try discriminate.
      injection Hl as <- <-.
      destruct (ledger_tx_spec digest _ _ _ _ _ _ Hinv E1) as (I1 & _ & _ & _ & _ & _ & _ & Hkeep & Hout & _).
      destruct (IH _ _ I1 E2) as [IH1 IH2].
      destruct (ledger_txs_spec digest show _ (MkExec chain n n (sender t) ∅ (ad_new ∅) (ad_new ∅) ∅) _ _ _ _ I1 E2)
        as (_ & _ & _ & _ & _ & _ & Hkeep2 & _).
      split.
      + intros id ast Hid. destruct (IH1 _ _ Hid) as [H|(i & c & ty & m & Hi & Hid' & Hast)].
        * destruct out as [r|e|]; [|left; destruct Hout as (_ & _ & _ & <-); exact H|contradiction].
          destruct Hout as [Hrun _]. apply run_tx_assets in Hrun.
          destruct r as [| |c ty| |]; try (left; congruence).
          destruct Hrun as [Hn HB]. rewrite HB in H.
          destruct (decide (digest (sbytes chain ++ ca c) = id)) as [<-|Hne].
          -- rewrite lookup_insert in H. injection H as <-. right. exists O, c, ty, n. auto.
          -- rewrite lookup_insert_ne in H by exact Hne. left; exact H.
        * right. exists (S i), c, ty, m. auto.
      + intros [|i] c ty m Hi; cbn in Hi.
        * injection Hi as -> ->. destruct Hout as [Hrun _]. apply run_tx_assets in Hrun as [Hn HB].
          split; [exact Hn|]. apply Hkeep2. rewrite HB, lookup_insert. reflexivity.
        * destruct (IH2 _ _ _ _ Hi) as [H1 H2]. split; [|exact H2].
          destruct (lg_assets L !! digest (sbytes chain ++ ca c)) as [a|] eqn:Ea; [|reflexivity].
          apply Hkeep in Ea. congruence.
  Qed.

  Lemma exec_assets os x ts resp x' :
    (forall n, order_ok (os n)) -> fresh x -> wf_accounts (committed x) ->
    exec os x ts = Ok (resp, x') ->
    (forall id ast, committed_assets x' !! id = Some ast -> committed_assets x !! id = Some ast \/
       exists (i : nat) r c ty, er_receipts resp !! i = Some r /\ rc_result r = RDeploy c ty /\
         id = digest (sbytes (x_chain_id x) ++ ca c) /\ ast = deployed_asset digest (x_chain_id x) c) /\
    (forall (i : nat) r c ty, er_receipts resp !! i = Some r -> rc_result r = RDeploy c ty ->
       committed_assets x !! digest (sbytes (x_chain_id x) ++ ca c) = None /\
       committed_assets x' !! digest (sbytes (x_chain_id x) ++ ca c) = Some (deployed_asset digest (x_chain_id x) c)).
  Proof.
    intros Hos Hf Hwf He. pose proof (exec_spec digest root_of show os x ts Hos Hf) as H. rewrite He in H.
    destruct (ledger_txs (x_chain_id x) (start x) ts) as [[outs L]|e'|] eqn:El; try contradiction.
    destruct H as (Hlen & _ & -> & _ & Hr & _).
    destruct (ledger_txs_assets _ _ _ _ _ (start_inv x Hwf) El) as [A1 A2].
    destruct (ledger_txs_spec digest show _ x _ _ _ _ (start_inv x Hwf) El) as (_ & _ & Hg & _).
    split.
    - intros id ast Hid. destruct (A1 _ _ Hid) as [Hd|(i & c & ty & n & Ho & Hid' & Hast)]; [left; exact Hd|right].
      assert (exists t, ts !! i = Some t) as [t Ht].
      { apply lookup_lt_is_Some. rewrite <- Hlen. apply lookup_lt_Some in Ho. exact Ho. }
      exists i, (with_root (receipt_of digest show x t (Ok (RDeploy c ty)) n) (er_state_root resp)), c, ty.
      split; [|auto]. rewrite Hr, list_lookup_fmap. unfold ExecutorFacts.receipts_of.
      erewrite (proj2 (lookup_zip_with_Some _ _ _ _ _)); [reflexivity|]. exists t, (Ok (RDeploy c ty), n). auto.
    - intros i r c ty Hi Hres. rewrite Hr, list_lookup_fmap in Hi. unfold ExecutorFacts.receipts_of in Hi.
      destruct (zip_with _ ts outs !! i) as [r0|] eqn:Ez; [|discriminate]. injection Hi as <-.
      apply lookup_zip_with_Some in Ez as (t' & o & -> & Ht' & Ho). cbn in Hres.
      pose proof (Forall_lookup_1 _ _ _ _ Hg Ho) as G.
      destruct o as [[res|e|] n]; cbn in Hres; try discriminate. subst res. eapply A2; eauto.
  Qed.

  (** C17, one transaction *)
  Lemma deploy_tx o x t r x' code from :
    order_ok o -> midblock digest show x -> rt_action (st_raw t) = Deploy code CtAsset ->
    is_sender digest t from -> exec_tx o x t = Ok (r, x') ->
    exists acc c, ad_get (x_acc x) from = Some acc /\
      contract_from_code digest code (account_nonce acc) CtAsset = Ok c /\
      let id := digest (sbytes (x_chain_id x) ++ ca c) in
      match ad_get (x_bank x) id with
      | Some _ => rc_result r = RFail (show (EAssetExists id)) (lit [] eq_refl)
      | None =>
          if fee_cycle (rt_fee (st_raw t)) <? 2100
          then rc_result r = RFail (show EOutOfCycles) (lit [] eq_refl)
          else rc_result r = RDeploy c CtAsset /\
               forall id', ad_get (x_bank x') id' =
                 (if decide (id' = id) then Some (deployed_asset digest (x_chain_id x) c) else ad_get (x_bank x) id')
      end.
  Proof.
    intros Ho Hm Ha Hfrom He. apply sender_unique in Hfrom as ->.
    destruct (exec_tx_step o x t r x' Ho Hm He) as (out & n & L' & E & -> & HL & Hs' & Henv).
    destruct (mid_inv x Hm) as [Hs Hi].
    destruct (ledger_tx_spec digest _ _ _ _ _ _ Hi E) as (_ & _ & Hsome & _ & _ & _ & _ & _ & Hout & _).
    rewrite <- HL in Hout. cbn [ledger_of lg_view lg_assets lg_durable] in *.
    destruct Hsome as [acc Hacc]. exists acc.
    destruct (contract_from_code_spec digest code (account_nonce acc) CtAsset) as (c & Ec & _ & _). exists c.
    rewrite lookup_Av, Hacc. split; [reflexivity|]. split; [exact Ec|]. cbn zeta.
    rewrite lookup_Bv. unfold run_tx in Hout. rewrite Ha, Hacc, Ec in Hout. cbn [map_err rbind] in Hout.
    unfold asset_id_of in Hout.
    destruct (Bv x !! digest (sbytes (x_chain_id x) ++ ca c)) as [a|].
    { destruct out as [res|e|]; [destruct Hout as [? _]; discriminate| |contradiction].
      destruct Hout as ([= <-] & _). reflexivity. }
    destruct (fee_cycle (rt_fee (st_raw t)) <? 2100).
    { destruct out as [res|e|]; [destruct Hout as [? _]; discriminate| |contradiction].
      destruct Hout as ([= <-] & _). reflexivity. }
    destruct out as [res|e|]; [|destruct Hout as [? _]; discriminate|contradiction].
    destruct Hout as ([= _ HB <- _] & _). split; [reflexivity|].
    intros id'. rewrite !lookup_Bv, <- HB. destruct (decide (id' = digest (sbytes (x_chain_id x) ++ ca c))) as [->|Hne].
    - rewrite lookup_insert. reflexivity.
    - rewrite lookup_insert_ne by congruence. reflexivity.
  Qed.
End More.

(** ** C21: fee aggregation *)
Section Fees.
  Lemma modify_ids all f :
    map fee_asset_id (modify_all_cycles_used all f) =
    if decide (fee_asset_id f ∈ map fee_asset_id all) then map fee_asset_id all
    else map fee_asset_id all ++ [fee_asset_id f].
  Proof.
    induction all as [|g all IH]; cbn.
    - rewrite decide_False by (apply not_elem_of_nil). reflexivity.
    - destruct (decide (fee_asset_id g = fee_asset_id f)) as [E|E]; cbn.
      + rewrite decide_True; [reflexivity|]. rewrite E. left.
      + rewrite IH. destruct (decide (fee_asset_id f ∈ map fee_asset_id all)) as [H|H].
        * rewrite decide_True by (right; exact H). reflexivity.
        * rewrite decide_False; [reflexivity|]. rewrite elem_of_cons. intros [?|?]; [congruence|contradiction].
  Qed.

  Lemma fold_ids rs : forall all,
    map fee_asset_id (fold_left (fun all r => modify_all_cycles_used all (rc_cycles_used r)) rs all)
    = map fee_asset_id all ++
      filter (fun h => h ∉ map fee_asset_id all) (first_uses (map (fun r => fee_asset_id (rc_cycles_used r)) rs)).
  Proof.
    induction rs as [|r rs IH]; intros all; cbn [fold_left map first_uses].
    - cbn. rewrite app_nil_r. reflexivity.
    - rewrite IH, modify_ids. set (h := fee_asset_id (rc_cycles_used r)).
      set (F := first_uses _). rewrite filter_cons.
      destruct (decide (h ∈ map fee_asset_id all)) as [H|H].
      + rewrite decide_False by tauto. rewrite list_filter_filter.
        f_equal. apply list_filter_iff. intros y. split; [|tauto]. intros Hy. split; [exact Hy|]. intros ->. contradiction.
      + rewrite decide_True by exact H. rewrite <- app_assoc. cbn [app]. f_equal. f_equal.
        rewrite list_filter_filter. apply list_filter_iff. intros y.
        rewrite elem_of_app, elem_of_list_singleton. tauto.
  Qed.

  Lemma all_ids rs :
    map fee_asset_id (all_cycles_used rs) = first_uses (map (fun r => fee_asset_id (rc_cycles_used r)) rs).
  Proof.
    unfold all_cycles_used. rewrite fold_ids. cbn [map app].
    set (l := first_uses _). induction l as [|x l IH]; [reflexivity|].
    rewrite filter_cons, decide_True by apply not_elem_of_nil. rewrite IH. reflexivity.
  Qed.

  Lemma first_uses_nodup l : NoDup (first_uses l).
  Proof.
    induction l as [|h l IH]; cbn; constructor.
    - rewrite elem_of_list_filter. intros [? _]. congruence.
    - apply NoDup_filter, IH.
  Qed.

  Lemma modify_sum all f id :
    fees_in id (modify_all_cycles_used all f) mod two64
    = (fees_in id all + (if decide (fee_asset_id f = id) then u64v (fee_cycle f) else 0)) mod two64.
  Proof.
    induction all as [|g all IH]; cbn.
    - f_equal. lia.
    - destruct (decide (fee_asset_id g = fee_asset_id f)) as [E|E]; cbn.
      + rewrite E. destruct (decide (fee_asset_id f = id)).
        * rewrite N.add_mod_idemp_l by discriminate. f_equal. lia.
        * f_equal. lia.
      + rewrite <- N.add_mod_idemp_r by discriminate. rewrite IH. rewrite N.add_mod_idemp_r by discriminate. f_equal. lia.
  Qed.

  Lemma fold_sum rs id : forall all,
    fees_in id (fold_left (fun all r => modify_all_cycles_used all (rc_cycles_used r)) rs all) mod two64
    = (fees_in id all + fees_in id (map rc_cycles_used rs)) mod two64.
  Proof.
    induction rs as [|r rs IH]; intros all; cbn [fold_left map fees_in].
    - f_equal. lia.
    - rewrite IH. rewrite <- N.add_mod_idemp_l by discriminate. rewrite modify_sum.
      rewrite N.add_mod_idemp_l by discriminate. f_equal. lia.
  Qed.

  Lemma fees_in_notin id l : id ∉ map fee_asset_id l -> fees_in id l = 0.
  Proof.
    induction l as [|f l IH]; cbn; [reflexivity|]. rewrite elem_of_cons. intros H.
    rewrite decide_False by (intros E; apply H; left; congruence). rewrite IH by tauto. reflexivity.
  Qed.

  Lemma fees_in_nodup l f : NoDup (map fee_asset_id l) -> f ∈ l -> fees_in (fee_asset_id f) l = fee_cycle f.
  Proof.
    induction l as [|g l IH]; intros Hnd Hin; [apply elem_of_nil in Hin; contradiction|].
    cbn in Hnd. apply NoDup_cons in Hnd as [Hn Hnd]. cbn. apply elem_of_cons in Hin as [->|Hin].
    - rewrite decide_True by reflexivity. rewrite fees_in_notin by exact Hn. lia.
    - rewrite decide_False.
      + rewrite IH by assumption. lia.
      + intros E. apply Hn. apply elem_of_list_fmap. exists f. split; [congruence|exact Hin].
  Qed.

  Lemma all_cycles_spec rs :
    map fee_asset_id (all_cycles_used rs) = first_uses (map (fun r => fee_asset_id (rc_cycles_used r)) rs) /\
    forall f, f ∈ all_cycles_used rs ->
      u64v (fee_cycle f) = fees_in (fee_asset_id f) (map rc_cycles_used rs) mod two64.
  Proof.
    split; [apply all_ids|]. intros f Hf.
    pose proof (fold_sum rs (fee_asset_id f) []) as H. cbn [fees_in] in H. rewrite N.add_0_l in H.
    rewrite <- H. fold (all_cycles_used rs). rewrite fees_in_nodup; [|rewrite all_ids; apply first_uses_nodup|exact Hf].
    symmetry. apply N.mod_small, N.ltb_lt, u64_ok.
  Qed.
End Fees.
