(** * Block-level proofs of the executor properties. *)
From Verif Require Import Base BaseFacts Hex Types Rlp RlpFacts FixedCodec FixedCodecFacts CodecProps
  StateAdapter StateAdapterFacts Executor ExecSpec ExecutorFacts ExecProps.
From Coq Require Import Permutation.
Local Open Scope N_scope.

Section Block.
  Context (digest : bytes -> hash) (root_of : gmap bytes bytes -> hash)
          (show : exec_err -> rstring).
  Notation sender := (sender digest).
  Notation ledger_txs := (ledger_txs digest).
  Notation exec_txs := (exec_txs digest show).
  Notation exec := (exec digest root_of show).
  Notation receipts_of := (receipts_of digest show).

  Lemma sender_eq a t : address_bytes a = sender_bytes digest t <-> a = sender t.
  Proof.
    split; [apply sender_unique|]. intros ->. apply sender_spec.
  Qed.
  Lemma sent_debit t a id : amount_sent digest t a id = debit digest t a id.
  Proof.
    unfold amount_sent, debit. destruct (rt_action (st_raw t)); try reflexivity.
    destruct (decide (address_bytes a = sender_bytes digest t /\ _)) as [[H1 H2]|H1];
      destruct (decide (a = sender t /\ _)) as [[H3 H4]|H3]; try reflexivity.
    - exfalso. apply H3. split; [apply sender_eq|]; assumption.
    - exfalso. apply H1. split; [apply sender_eq|]; assumption.
  Qed.

  Definition out_good (o : res exec_err receipt_result * u64) : Prop :=
    match o.1 with Ok r => forall s u, r <> RFail s u | Err _ => True | Panic => False end.

  Lemma succeeded_out x t o : out_good o ->
    succeeded (receipt_of digest show x t o.1 o.2) = out_ok o.1.
  Proof.
    destruct o as [[r|e|] n]; cbn; intros H; try reflexivity.
    unfold succeeded; cbn. destruct r; try reflexivity. exfalso. eapply H; reflexivity.
  Qed.

  (** ** Everything that follows by induction over the block *)
  Lemma ledger_txs_spec chain x L ts outs L' :
    led_inv L -> ledger_txs chain L ts = Ok (outs, L') ->
    led_inv L' /\ length outs = length ts /\ Forall out_good outs /\
    (forall a id, bal (lg_durable L') a id + sum_succeeded (fun t => debit digest t a id) ts (receipts_of x ts outs)
                = bal (lg_durable L) a id + sum_succeeded (fun t => credit t a id) ts (receipts_of x ts outs)) /\
    (forall id, total id (lg_durable L') = total id (lg_durable L)) /\
    (forall a, is_Some (lg_durable L !! a) -> is_Some (lg_durable L' !! a)) /\
    (forall id ast, lg_assets L !! id = Some ast -> lg_assets L' !! id = Some ast) /\
    Forall supported ts.
  Proof.
    revert L outs. induction ts as [|t ts IH]; intros L outs Hinv Hl; cbn [ExecutorFacts.ledger_txs] in Hl.
    - injection Hl as <- <-. cbn. repeat split; auto; try apply Hinv; intros; lia.
    - destruct (ledger_tx digest chain L t (sender t)) as [[[out n] L1]|e|] eqn:E1; cbn [rbind] in Hl; try discriminate.
      destruct (ledger_txs chain L1 ts) as [[outs1 L2]|e|] eqn:E2; cbn [rbind] in Hl; try discriminate.
      injection Hl as <- <-.
      destruct (ledger_tx_spec digest _ _ _ _ _ _ Hinv E1) as (I1 & Sup & Hs & Hn & Hb & Ht & Hd & Ha & Ho & _).
      destruct (IH _ _ I1 E2) as (I2 & Hlen & Hg & Hb2 & Ht2 & Hd2 & Ha2 & Hsup).
      assert (G : out_good (out, n)).
      { unfold out_good; cbn. destruct out; [apply Ho|exact I|exact Ho]. }
      split; [exact I2|]. split; [cbn; congruence|]. split; [constructor; assumption|].
      split.
      { intros a id. specialize (Hb a id). specialize (Hb2 a id).
        cbn [ExecutorFacts.receipts_of zip_with sum_succeeded].
        change (zip_with (fun t o => receipt_of digest show x t o.1 o.2) ts outs1) with (receipts_of x ts outs1).
        pose proof (succeeded_out x t (out, n) G) as Hsu. cbn [fst snd] in *. rewrite Hsu.
        destruct (out_ok out); lia. }
      split; [intros; congruence|]. split; [auto|]. split; [auto|]. constructor; assumption.
  Qed.

  (** Accounts not named in the block are untouched. *)
  Lemma ledger_txs_untouched chain L ts outs L' a :
    led_inv L -> lg_view L !! a = lg_durable L !! a ->
    Forall (fun t => a <> sender t /\ ~ is_receiver t a) ts ->
    ledger_txs chain L ts = Ok (outs, L') -> lg_durable L' !! a = lg_durable L !! a.
  Proof.
    revert L outs. induction ts as [|t ts IH]; intros L outs Hinv Hv Hf Hl; cbn [ExecutorFacts.ledger_txs] in Hl.
    - injection Hl as <- <-. reflexivity.
    - destruct (ledger_tx digest chain L t (sender t)) as [[[out n] L1]|e|] eqn:E1; cbn [rbind] in Hl; try discriminate.
      destruct (ledger_txs chain L1 ts) as [[outs1 L2]|e|] eqn:E2; cbn [rbind] in Hl; try discriminate.
      injection Hl as <- <-. apply Forall_cons in Hf as [[Hf1 Hf2] Hf].
      destruct (ledger_tx_spec digest _ _ _ _ _ _ Hinv E1) as (I1 & Sup & Hs & Hn & Hb & Ht & Hd & Ha & Ho & (acc & Hacc & Hview)).
      assert (HD : lg_durable L1 !! a = lg_durable L !! a).
      { destruct out as [r|e|]; [|destruct Ho as (_ & _ & -> & _); reflexivity|contradiction].
        destruct Ho as [Ho _].
        destruct (run_tx_spec digest _ _ _ _ _ _ _ _ (inv_view_wf _ Hinv) Ho) as (_ & _ & H3 & _).
        rewrite H3 by assumption. exact Hv. }
      rewrite <- HD. eapply IH; eauto. rewrite Hview, lookup_insert_ne by congruence. reflexivity.
  Qed.

  (** ** Nonces *)
  Fixpoint dur (a : address) (prev : option address) (ts : list signed_tx)
    (outs : list (res exec_err receipt_result * u64)) : N :=
    match ts, outs with
    | t :: ts', o :: outs' =>
        (if decide (prev = Some a) then if out_ok o.1 then 1 else 0 else 0) + dur a (Some (sender t)) ts' outs'
    | _, _ => 0
    end.

  Definition pend_view (prev : option address) (L : ledger) : Prop :=
    match prev with
    | None => lg_view L = lg_durable L
    | Some a => exists acc, lg_durable L !! a = Some acc /\ lg_view L = <[a := account_inc acc]> (lg_durable L)
    end.

  Lemma pend_nonce prev L a : pend_view prev L ->
    nonce (lg_view L) a = (nonce (lg_durable L) a + (if decide (prev = Some a) then 1 else 0)) mod two64.
  Proof.
    destruct prev as [p|]; cbn.
    - intros (acc & E & ->). rewrite nonce_insert. destruct (decide (a = p)) as [->|Hne].
      + rewrite decide_True by reflexivity. rewrite inc_nonce_val. unfold nonce. rewrite E. reflexivity.
      + rewrite decide_False by congruence. rewrite N.add_0_r, N.mod_small by apply nonce_lt. reflexivity.
    - intros ->. rewrite decide_False by congruence. rewrite N.add_0_r, N.mod_small by apply nonce_lt. reflexivity.
  Qed.

  Lemma ledger_txs_nonce chain L ts outs L' prev a :
    led_inv L -> pend_view prev L -> ledger_txs chain L ts = Ok (outs, L') ->
    nonce (lg_durable L') a = (nonce (lg_durable L) a + dur a prev ts outs) mod two64.
  Proof.
    revert L outs prev. induction ts as [|t ts IH]; intros L outs prev Hinv Hp Hl; cbn [ExecutorFacts.ledger_txs] in Hl.
    - injection Hl as <- <-. cbn. rewrite N.add_0_r, N.mod_small by apply nonce_lt. reflexivity.
    - destruct (ledger_tx digest chain L t (sender t)) as [[[out n] L1]|e|] eqn:E1; cbn [rbind] in Hl; try discriminate.
      destruct (ledger_txs chain L1 ts) as [[outs1 L2]|e|] eqn:E2; cbn [rbind] in Hl; try discriminate.
      injection Hl as <- <-.
      destruct (ledger_tx_spec digest _ _ _ _ _ _ Hinv E1) as (I1 & Sup & Hs & Hn & Hb & Ht & Hd & Ha & Ho & Hview).
      rewrite (IH _ _ (Some (sender t)) I1 Hview E2). cbn [dur fst].
      assert (HD : nonce (lg_durable L1) a =
        (nonce (lg_durable L) a + (if decide (prev = Some a) then if out_ok out then 1 else 0 else 0)) mod two64).
      { destruct out as [r|e|]; [| |contradiction]; cbn.
        - destruct Ho as [Ho _].
          destruct (run_tx_spec digest _ _ _ _ _ _ _ _ (inv_view_wf _ Hinv) Ho) as (_ & H2 & _).
          rewrite H2. rewrite (pend_nonce _ _ _ Hp). destruct (decide (prev = Some a)); reflexivity.
        - destruct Ho as (_ & _ & -> & _).
          destruct (decide (prev = Some a)); rewrite N.add_0_r, N.mod_small by apply nonce_lt; reflexivity. }
      rewrite HD. rewrite N.add_mod_idemp_l by discriminate. f_equal. lia.
  Qed.

  Lemma dur_followed x a s ts outs :
    Forall out_good outs ->
    dur a (Some (sender s)) ts outs = followed_by_success digest a (s :: ts) (receipts_of x ts outs).
  Proof.
    revert s outs. induction ts as [|t ts IH]; intros s outs Hg; [reflexivity|].
    destruct outs as [|o outs]; [reflexivity|]. apply Forall_cons in Hg as [G Hg].
    cbn [dur ExecutorFacts.receipts_of zip_with followed_by_success].
    change (zip_with (fun t o => receipt_of digest show x t o.1 o.2) ts outs) with (receipts_of x ts outs).
    rewrite (IH t outs Hg). rewrite (succeeded_out x t o G). f_equal.
    destruct (decide (Some (sender s) = Some a)) as [E|E]; destruct (decide (address_bytes a = _)) as [E'|E']; try reflexivity.
    - exfalso. apply E'. apply sender_eq. congruence.
    - exfalso. apply E. f_equal. symmetry. apply sender_eq, E'.
  Qed.

  (** ** When does the loop fail? *)
  Lemma ledger_tx_fail chain L t :
    led_inv L ->
    (ledger_tx digest chain L t (sender t) = Panic <-> ~ supported t) /\
    (forall e, ledger_tx digest chain L t (sender t) = Err e <->
       supported t /\ lg_durable L !! sender t = None /\ e = EAccountNotFound (sender t)).
  Proof.
    intros Hinv. pose proof (inv_view_wf _ Hinv) as Hwf. unfold ledger_tx.
    pose proof (run_tx_panic digest chain t (lg_view L) (lg_assets L) Hwf) as Hp.
    destruct (run_tx digest chain t (sender t) (lg_view L) (lg_assets L)) as [[[[V1 B1] r] n1]|e|] eqn:Er; cbn [rbind].
    - destruct (run_tx_spec digest _ _ _ _ _ _ _ _ Hwf Er) as (H1 & H2 & H3 & H4 & H5 & H6 & H7 & H8 & H9 & H10 & H11 & H12).
      destruct (H6 _ H8) as [acc Hacc]. rewrite Hacc. split.
      + split; [discriminate|tauto].
      + intros e. split; [discriminate|]. intros (_ & Hn & _).
        apply (inv_view_dom _ _ Hinv) in H8. rewrite Hn in H8. destruct H8; discriminate.
    - assert (Hsup : supported t).
      { destruct (decide (supported t)) as [|Hn]; [assumption|]. apply Hp in Hn. discriminate. }
      destruct (lg_durable L !! sender t) as [acc|] eqn:EV.
      + split; [split; [discriminate|tauto]|]. intros e'. split; [discriminate|]. intros (_ & ? & _). discriminate.
      + split; [split; [discriminate|tauto]|]. intros e'. split; [intros [= <-]; auto|]. intros (_ & _ & ->). reflexivity.
    - split; [tauto|]. intros e. split; [discriminate|]. intros (Hsup & _). exfalso. apply Hp; auto.
  Qed.

  Lemma ledger_txs_app chain L ts1 ts2 :
    ledger_txs chain L (ts1 ++ ts2) =
    (let? (o1, L1) := ledger_txs chain L ts1 in
     let? (o2, L2) := ledger_txs chain L1 ts2 in Ok (o1 ++ o2, L2)).
  Proof.
    revert L. induction ts1 as [|t ts1 IH]; intros L; cbn.
    - destruct (ledger_txs chain L ts2) as [[? ?]|e|]; reflexivity.
    - destruct (ledger_tx digest chain L t (sender t)) as [[[out n] L1]|e|]; cbn; try reflexivity.
      rewrite IH. destruct (ledger_txs chain L1 ts1) as [[? ?]|e|]; cbn; try reflexivity.
      destruct (ledger_txs chain l0 ts2) as [[? ?]|e|]; reflexivity.
  Qed.

  Lemma ledger_txs_inv chain L ts outs L' :
    led_inv L -> ledger_txs chain L ts = Ok (outs, L') -> led_inv L'.
  Proof.
    revert L outs. induction ts as [|t ts IH]; intros L outs Hinv Hl; cbn [ExecutorFacts.ledger_txs] in Hl.
    - injection Hl as <- <-. exact Hinv.
    - destruct (ledger_tx digest chain L t (sender t)) as [[[out n] L1]|e|] eqn:E1; cbn [rbind] in Hl; try discriminate.
      destruct (ledger_txs chain L1 ts) as [[outs1 L2]|e|] eqn:E2; cbn [rbind] in Hl; try discriminate.
      injection Hl as <- <-. eapply IH; [|exact E2]. eapply ledger_tx_spec; eauto.
  Qed.

  Lemma ledger_txs_fail chain L ts :
    led_inv L ->
    (ledger_txs chain L ts = Panic <->
     exists ts1 t ts2 outs L1, ts = ts1 ++ t :: ts2 /\ ledger_txs chain L ts1 = Ok (outs, L1) /\ ~ supported t) /\
    (forall e, ledger_txs chain L ts = Err e <->
     exists ts1 t ts2 outs L1, ts = ts1 ++ t :: ts2 /\ ledger_txs chain L ts1 = Ok (outs, L1) /\
       supported t /\ lg_durable L1 !! sender t = None /\ e = EAccountNotFound (sender t)).
  Proof.
    intros Hinv. split; [|intros e]; split.
    - revert L Hinv. induction ts as [|t ts IH]; intros L Hinv; cbn [ExecutorFacts.ledger_txs]; [discriminate|].
      destruct (ledger_tx_fail chain L t Hinv) as [F1 F2].
      destruct (ledger_tx digest chain L t (sender t)) as [[[out n] L1]|e|] eqn:E1; cbn [rbind]; try discriminate.
      + assert (I1 : led_inv L1) by (eapply ledger_tx_spec; eauto).
        destruct (ledger_txs chain L1 ts) as [[outs1 L2]|e|] eqn:E2; cbn [rbind]; try discriminate. intros _.
        destruct (IH L1 I1 E2) as (ts1 & t' & ts2 & outs & L2 & -> & E3 & Hs).
        exists (t :: ts1), t', ts2, ((out, n) :: outs), L2. split; [reflexivity|]. cbn. rewrite E1. cbn.
        rewrite E3. auto.
      + intros _. exists [], t, ts, [], L. split; [reflexivity|]. split; [reflexivity|]. apply F1. reflexivity.
    - intros (ts1 & t & ts2 & outs & L1 & -> & E & Hs). rewrite ledger_txs_app, E. cbn.
      assert (I1 : led_inv L1) by (eapply ledger_txs_inv; eauto).
      destruct (ledger_tx_fail chain L1 t I1) as [F1 _]. rewrite (proj2 F1 Hs). reflexivity.
    - revert L Hinv. induction ts as [|t ts IH]; intros L Hinv; cbn [ExecutorFacts.ledger_txs]; [discriminate|].
      destruct (ledger_tx_fail chain L t Hinv) as [F1 F2].
      destruct (ledger_tx digest chain L t (sender t)) as [[[out n] L1]|e'|] eqn:E1; cbn [rbind]; try discriminate.
      + assert (I1 : led_inv L1) by (eapply ledger_tx_spec; eauto).
        destruct (ledger_txs chain L1 ts) as [[outs1 L2]|e'|] eqn:E2; cbn [rbind]; try discriminate. intros [= ->].
        destruct (IH L1 I1 E2) as (ts1 & t' & ts2 & outs & L2 & -> & E3 & Hs).
        exists (t :: ts1), t', ts2, ((out, n) :: outs), L2. split; [reflexivity|]. cbn. rewrite E1. cbn.
        rewrite E3. auto.
      + intros [= ->]. exists [], t, ts, [], L. split; [reflexivity|]. split; [reflexivity|]. apply F2. reflexivity.
    - intros (ts1 & t & ts2 & outs & L1 & -> & E & Hs). rewrite ledger_txs_app, E. cbn.
      assert (I1 : led_inv L1) by (eapply ledger_txs_inv; eauto).
      destruct (ledger_tx_fail chain L1 t I1) as [_ F2]. rewrite (proj2 (F2 e) Hs). reflexivity.
  Qed.

  (** ** From the loop to [exec] *)
  Definition start (x : executor) : ledger := MkLedger (committed x) (committed x) (committed_assets x).

  Lemma fresh_ledger x : fresh x -> ledger_of x = start x /\ settled x.
  Proof.
    intros (H1 & H2 & H3 & H4). unfold ledger_of, start, settled, Av, Ad, Bv, Bd, view, durable, committed, committed_assets.
    rewrite H1, H2, H3, H4. rewrite !(left_id_L ∅ (∪)). split; reflexivity.
  Qed.
  Lemma start_inv x : wf_accounts (committed x) -> led_inv (start x).
  Proof. intros H. split; [exact H|left; reflexivity]. Qed.

  Lemma exec_spec os x ts :
    (forall n, order_ok (os n)) -> fresh x ->
    match exec os x ts, ledger_txs (x_chain_id x) (start x) ts with
    | Ok (resp, x'), Ok (outs, L) =>
        length outs = length ts /\
        committed x' = lg_durable L /\ committed_assets x' = lg_assets L /\
        er_state_root resp = root_of (top_after root_of x (lg_durable L) (lg_assets L)) /\
        er_receipts resp = map (fun r => with_root r (er_state_root resp)) (receipts_of x ts outs) /\
        er_all_cycles_used resp = all_cycles_used (receipts_of x ts outs) /\
        x_trie x' = top_after root_of x (lg_durable L) (lg_assets L) /\
        ad_stash (x_acc x') = ∅ /\ ad_stash (x_bank x') = ∅ /\
        x_chain_id x' = x_chain_id x /\ x_epoch_id x' = x_epoch_id x /\ x_price x' = x_price x /\
        x_coinbase x' = x_coinbase x
    | Err e, Err e' => e = e'
    | Panic, Panic => True
    | _, _ => False
    end.
  Proof.
    intros Hos Hf. destruct (fresh_ledger x Hf) as [HL Hset].
    pose proof (exec_txs_ok digest show (fun n => os (S n)) x ts ltac:(intros; apply Hos) Hset) as H.
    rewrite HL in H. unfold Executor.exec.
    destruct (Executor.exec_txs digest show (fun n => os (S n)) x ts) as [[rs x1]|e|];
      destruct (ledger_txs (x_chain_id x) (start x) ts) as [[outs L]|e'|];
      try contradiction; cbn [rbind]; [|exact H|exact I].
    destruct H as (-> & Hlen & HL1 & Hs1 & Henv).
    destruct (commit root_of (os 0%nat) (pay_coinbase digest x1 (all_cycles_used (receipts_of x ts outs)))) as [root x3] eqn:Ec.
    destruct (commit_spec root_of _ _ _ _ (Hos 0%nat) Ec) as (C1 & C2 & C3 & C4 & C5 & C6 & C7 & C8 & C9 & C10 & C11 & C12 & C13 & C14).
    destruct (pay_coinbase_spec digest x1 (all_cycles_used (receipts_of x ts outs))) as (P1 & P2 & P3 & P4).
    set (x2 := pay_coinbase digest x1 _) in *.
    assert (D1 : Ad x1 = lg_durable L) by (rewrite <- HL1; reflexivity).
    assert (D2 : Bd x1 = lg_assets L) by (rewrite <- HL1; symmetry; exact Hs1).
    assert (T : top_after root_of x2 (Ad x2) (Bd x2) = top_after root_of x (lg_durable L) (lg_assets L)).
    { unfold top_after. rewrite P1, P2, D1, D2, (se_trie _ _ P4), (se_trie _ _ Henv). reflexivity. }
    cbn [er_state_root er_receipts er_all_cycles_used].
    split; [exact Hlen|]. split; [congruence|]. split; [congruence|]. split; [congruence|].
    split; [reflexivity|]. split; [reflexivity|]. split; [congruence|]. split; [exact C6|]. split; [exact C7|].
    rewrite C11, C12, C13, C14, (se_chain _ _ P4), (se_epoch _ _ P4), (se_price _ _ P4), (se_coinbase _ _ P4),
      (se_chain _ _ Henv), (se_epoch _ _ Henv), (se_price _ _ Henv), (se_coinbase _ _ Henv). auto.
  Qed.

  Lemma sum_with_root f ts rs h :
    sum_succeeded f ts (map (fun r => with_root r h) rs) = sum_succeeded f ts rs.
  Proof.
    revert rs. induction ts as [|t ts IH]; intros [|r rs]; cbn; try reflexivity. rewrite IH. reflexivity.
  Qed.
  Lemma sum_ext f g ts rs : (forall t, f t = g t) -> sum_succeeded f ts rs = sum_succeeded g ts rs.
  Proof.
    intros E. revert rs. induction ts as [|t ts IH]; intros [|r rs]; cbn; try reflexivity. rewrite IH, E. reflexivity.
  Qed.
  Lemma followed_with_root a ts rs h :
    followed_by_success digest a ts (map (fun r => with_root r h) rs) = followed_by_success digest a ts rs.
  Proof.
    revert rs. induction ts as [|t ts IH]; intros [|r rs]; cbn; try reflexivity. rewrite IH. reflexivity.
  Qed.

  (** C10, C11 (block level) *)
  Lemma exec_balances os x ts resp x' :
    (forall n, order_ok (os n)) -> fresh x -> wf_accounts (committed x) ->
    exec os x ts = Ok (resp, x') ->
    forall a id,
      bal (committed x') a id + sum_succeeded (fun t => amount_sent digest t a id) ts (er_receipts resp)
      = bal (committed x) a id + sum_succeeded (fun t => amount_received t a id) ts (er_receipts resp).
  Proof.
    intros Hos Hf Hwf He a id. pose proof (exec_spec os x ts Hos Hf) as H. rewrite He in H.
    destruct (ledger_txs (x_chain_id x) (start x) ts) as [[outs L]|e'|] eqn:El; try contradiction.
    destruct H as (Hlen & -> & Hca & Hr & -> & _).
    destruct (ledger_txs_spec _ x _ _ _ _ (start_inv x Hwf) El) as (_ & _ & _ & Hb & _).
    rewrite !sum_with_root. specialize (Hb a id). cbn [start lg_durable] in Hb.
    rewrite (sum_ext _ (fun t => debit digest t a id)) by (intros; apply sent_debit). exact Hb.
  Qed.

  Lemma exec_total os x ts resp x' :
    (forall n, order_ok (os n)) -> fresh x -> wf_accounts (committed x) ->
    exec os x ts = Ok (resp, x') -> forall id, total id (committed x') = total id (committed x).
  Proof.
    intros Hos Hf Hwf He id. pose proof (exec_spec os x ts Hos Hf) as H. rewrite He in H.
    destruct (ledger_txs (x_chain_id x) (start x) ts) as [[outs L]|e'|] eqn:El; try contradiction.
    destruct H as (Hlen & -> & _).
    destruct (ledger_txs_spec _ x _ _ _ _ (start_inv x Hwf) El) as (_ & _ & _ & _ & Ht & _). apply Ht.
  Qed.

  Lemma exec_wf os x ts resp x' :
    (forall n, order_ok (os n)) -> fresh x -> wf_accounts (committed x) ->
    exec os x ts = Ok (resp, x') -> wf_accounts (committed x').
  Proof.
    intros Hos Hf Hwf He. pose proof (exec_spec os x ts Hos Hf) as H. rewrite He in H.
    destruct (ledger_txs (x_chain_id x) (start x) ts) as [[outs L]|e'|] eqn:El; try contradiction.
    destruct H as (Hlen & -> & _).
    destruct (ledger_txs_spec _ x _ _ _ _ (start_inv x Hwf) El) as ((Hw & _) & _). exact Hw.
  Qed.

  (** C19 *)
  Lemma exec_nonce os x ts resp x' :
    (forall n, order_ok (os n)) -> fresh x -> wf_accounts (committed x) ->
    exec os x ts = Ok (resp, x') ->
    forall a, nonce (committed x') a
      = (nonce (committed x) a + followed_by_success digest a ts (tail (er_receipts resp))) mod two64.
  Proof.
    intros Hos Hf Hwf He a. pose proof (exec_spec os x ts Hos Hf) as H. rewrite He in H.
    destruct (ledger_txs (x_chain_id x) (start x) ts) as [[outs L]|e'|] eqn:El; try contradiction.
    destruct H as (Hlen & -> & Hca & Hr & -> & _).
    destruct (ledger_txs_spec _ x _ _ _ _ (start_inv x Hwf) El) as (_ & _ & Hg & _).
    rewrite (ledger_txs_nonce _ _ _ _ _ None a (start_inv x Hwf) eq_refl El).
    cbn [start lg_durable]. f_equal. f_equal.
    destruct ts as [|t ts]; [reflexivity|]. destruct outs as [|o outs]; [discriminate|].
    apply Forall_cons in Hg as [_ Hg].
    cbn [dur ExecutorFacts.receipts_of zip_with map tail].
    change (zip_with (fun t o => receipt_of digest show x t o.1 o.2) ts outs) with (receipts_of x ts outs).
    rewrite followed_with_root, <- dur_followed by assumption.
    rewrite decide_False by congruence. reflexivity.
  Qed.

  (** C23 *)
  Lemma exec_untouched os x ts resp x' a :
    (forall n, order_ok (os n)) -> fresh x -> wf_accounts (committed x) ->
    exec os x ts = Ok (resp, x') ->
    Forall (fun t => ~ is_sender digest t a /\ ~ is_receiver t a) ts ->
    committed x' !! a = committed x !! a.
  Proof.
    intros Hos Hf Hwf He Hn. pose proof (exec_spec os x ts Hos Hf) as H. rewrite He in H.
    destruct (ledger_txs (x_chain_id x) (start x) ts) as [[outs L]|e'|] eqn:El; try contradiction.
    destruct H as (Hlen & -> & _).
    rewrite (ledger_txs_untouched _ _ _ _ _ a (start_inv x Hwf) eq_refl) with (2 := El); [reflexivity|].
    eapply Forall_impl; [exact Hn|]. intros t [H1 H2]. split; [|exact H2].
    intros ->. apply H1, sender_spec.
  Qed.

  (** C13, C14 *)
  Lemma ledger_txs_out chain L ts outs L' (i : nat) t (o : res exec_err receipt_result * u64) :
    led_inv L -> ledger_txs chain L ts = Ok (outs, L') -> ts !! i = Some t -> outs !! i = Some o ->
    u64v o.2 <= fee_cycle (rt_fee (st_raw t)) /\
    match o.1 with
    | Ok (RTransfer r a _ _) => u64v o.2 = 210 /\ (exists c, rt_action (st_raw t) = Transfer r c /\ cr_asset_id c = a)
    | Ok (RDeploy c ty) => u64v o.2 = 2100 /\ ty = CtAsset /\ (exists code, rt_action (st_raw t) = Deploy code CtAsset)
    | Ok _ => False
    | Err e => u64v o.2 = 0
    | Panic => False
    end.
  Proof.
    revert L outs i. induction ts as [|t0 ts IH]; intros L outs i Hinv Hl Ht Ho; [discriminate|].
    cbn [ExecutorFacts.ledger_txs] in Hl.
    destruct (ledger_tx digest chain L t0 (sender t0)) as [[[out n] L1]|e|] eqn:E1; cbn [rbind] in Hl; try discriminate.
    destruct (ledger_txs chain L1 ts) as [[outs1 L2]|e|] eqn:E2; cbn [rbind] in Hl; try discriminate.
    injection Hl as <- <-.
    destruct (ledger_tx_spec digest _ _ _ _ _ _ Hinv E1) as (I1 & Sup & Hs & Hn & Hb & Htt & Hd & Ha & Hout & _).
    destruct i as [|i]; cbn in Ht, Ho.
    - injection Ht as <-. injection Ho as <-. cbn [fst snd]. split; [exact Hn|].
      destruct out as [r|e|]; [|destruct Hout as (_ & -> & _); reflexivity|contradiction].
      destruct Hout as [Hrun _]. unfold run_tx in Hrun.
      destruct (rt_action (st_raw t0)) as [to carry|? ? ?|code ct|? ? ? ?] eqn:Ea; try discriminate.
      + destruct (lg_assets L !! cr_asset_id carry); [|discriminate].
        destruct (move _ _ _ _ _ _) as [V1|e|]; cbn [rbind] in Hrun; try discriminate.
        destruct (_ <? 210) in Hrun; [discriminate|]. injection Hrun as _ _ <- <-. split; [reflexivity|]. eauto.
      + destruct ct; try discriminate. destruct (lg_view L !! sender t0) as [acc|]; [|discriminate].
        destruct (contract_from_code_spec digest code (account_nonce acc) CtAsset) as (c & Ec & _ & _).
        rewrite Ec in Hrun. cbn [map_err rbind] in Hrun. destruct (lg_assets L !! _); [discriminate|].
        destruct (_ <? 2100) in Hrun; [discriminate|]. injection Hrun as _ _ <- <-. split; [reflexivity|]. eauto.
    - eapply IH; eauto.
  Qed.
End Block.
