(** * Proofs of the executor properties (statements in PropExecutor.v). *)
From Verif Require Import Base BaseFacts Hex Types Rlp RlpFacts FixedCodec FixedCodecFacts CodecProps
  StateAdapter StateAdapterFacts Executor ExecSpec ExecutorFacts.
From Coq Require Import Permutation.
Local Open Scope N_scope.

(** ** Arithmetic on one account *)
Lemma add_balance_eq acc id amt id' :
  account_balance (account_add acc id amt) id' = account_balance acc id' + (if decide (id' = id) then amt else 0).
Proof.
  destruct acc as [u|c]; cbn.
  - destruct (decide (id' = id)) as [->|Hne].
    + rewrite lookup_insert. destruct (uac_assets u !! id); cbn; lia.
    + rewrite lookup_insert_ne by congruence. lia.
  - destruct (decide (id' = id)) as [->|Hne].
    + rewrite lookup_insert. destruct (cac_assets c !! id); cbn; lia.
    + rewrite lookup_insert_ne by congruence. lia.
Qed.

Lemma sub_user_spec u id amt :
  account_sub (AccUser u) id amt =
  match uac_assets u !! id with
  | Some i => if ai_balance i <? amt then Err EInsufficientBalance
              else Ok (AccUser (MkUserAccount (uac_nonce u)
                     (<[id := MkAssetInfo (ai_balance i - amt) (ai_approved i)]> (uac_assets u))))
  | None => Err EInsufficientBalance
  end.
Proof. reflexivity. Qed.

Lemma sub_user_ok u id amt acc' :
  account_sub (AccUser u) id amt = Ok acc' ->
  (exists i, uac_assets u !! id = Some i /\ amt <= ai_balance i) /\
  (forall id', account_balance acc' id' + (if decide (id' = id) then amt else 0) = account_balance (AccUser u) id') /\
  account_nonce acc' = uac_nonce u /\ (exists u', acc' = AccUser u').
Proof.
  cbn. destruct (uac_assets u !! id) as [i|] eqn:E; [|discriminate].
  destruct (ai_balance i <? amt) eqn:L; [discriminate|]. intros [= <-].
  apply N.ltb_ge in L. split; [eauto|]. split; [|split; [reflexivity|eauto]].
  intros id'. cbn. destruct (decide (id' = id)) as [->|Hne].
  - rewrite lookup_insert, E. cbn. lia.
  - rewrite lookup_insert_ne by congruence. lia.
Qed.

Lemma inc_balance acc id : account_balance (account_inc acc) id = account_balance acc id.
Proof. destruct acc; reflexivity. Qed.
Lemma add_nonce acc id amt : account_nonce (account_add acc id amt) = account_nonce acc.
Proof. destruct acc; reflexivity. Qed.
Lemma inc_nonce_val acc : u64v (account_nonce (account_inc acc)) = (account_nonce acc + 1) mod two64.
Proof. destruct acc; reflexivity. Qed.
Lemma kind_add a acc id amt : kind_ok a acc -> kind_ok a (account_add acc id amt).
Proof. destruct a, acc; auto. Qed.
Lemma kind_inc a acc : kind_ok a acc -> kind_ok a (account_inc acc).
Proof. destruct a, acc; auto. Qed.
Lemma kind_new digest a : kind_ok a (new_account digest a).
Proof. destruct a; exact I. Qed.
Lemma new_balance digest a id : account_balance (new_account digest a) id = 0.
Proof. destruct a; cbn; rewrite lookup_empty; reflexivity. Qed.
Lemma new_nonce digest a : u64v (account_nonce (new_account digest a)) = 0.
Proof. destruct a; reflexivity. Qed.

(** ** Totals *)
Lemma total_insert id (m : accounts) a acc :
  total id (<[a := acc]> m) + bal m a id = total id m + account_balance acc id.
Proof.
  unfold total, bal. set (f := fun (_ : address) (acc : account) s => account_balance acc id + s).
  assert (Hc : forall (j1 j2 : address) (z1 z2 : account) (y : N), f j1 z1 (f j2 z2 y) = f j2 z2 (f j1 z1 y))
    by (intros; unfold f; lia).
  destruct (m !! a) as [old|] eqn:E.
  - rewrite <- (insert_delete m a old E) at 2. rewrite <- insert_delete_insert.
    rewrite !map_fold_insert_L; try apply lookup_delete; try (intros; apply Hc).
    unfold f. lia.
  - rewrite map_fold_insert_L; [|intros; apply Hc|exact E]. unfold f. lia.
Qed.

Lemma bal_insert m a acc a' id :
  bal (<[a := acc]> m) a' id = if decide (a' = a) then account_balance acc id else bal m a' id.
Proof.
  unfold bal. destruct (decide (a' = a)) as [->|Hne].
  - rewrite lookup_insert. reflexivity.
  - rewrite lookup_insert_ne by congruence. reflexivity.
Qed.
Lemma nonce_insert m a acc a' :
  nonce (<[a := acc]> m) a' = if decide (a' = a) then u64v (account_nonce acc) else nonce m a'.
Proof.
  unfold nonce. destruct (decide (a' = a)) as [->|Hne].
  - rewrite lookup_insert. reflexivity.
  - rewrite lookup_insert_ne by congruence. reflexivity.
Qed.
Lemma nonce_lt m a : nonce m a < two64.
Proof. unfold nonce. destruct (m !! a); [apply N.ltb_lt, u64_ok | reflexivity]. Qed.

(** Two states with the same balances and the same nonces except one bump. *)
Lemma total_bump id m a acc : m !! a = Some acc -> total id (<[a := account_inc acc]> m) = total id m.
Proof.
  intros E. pose proof (total_insert id m a (account_inc acc)) as H. rewrite inc_balance in H.
  unfold bal in H. rewrite E in H. lia.
Qed.

Section Props.
  Context (digest : bytes -> hash).
  Notation sender := (sender digest).

  (** ** [move] *)
  Lemma move_spec V from to id amt V' :
    wf_accounts V -> (exists u, from = AUser u) -> move digest V from to id amt = Ok V' ->
    (exists u i, V !! from = Some (AccUser u) /\ uac_assets u !! id = Some i /\ amt <= ai_balance i) /\
    (forall a id', bal V' a id' + (if decide (a = from /\ id' = id) then amt else 0)
                 = bal V a id' + (if decide (a = to /\ id' = id) then amt else 0)) /\
    (forall a, nonce V' a = nonce V a) /\
    (forall a, a <> from -> a <> to -> V' !! a = V !! a) /\
    (forall id', total id' V' = total id' V) /\ wf_accounts V' /\
    (forall a, is_Some (V !! a) -> is_Some (V' !! a)) /\
    (forall a, is_Some (V' !! a) -> is_Some (V !! a) \/ a = to).
  Proof.
    intros Hwf [uf Hf] Hm. unfold move in Hm.
    destruct (V !! from) as [acc|] eqn:EV; [|discriminate].
    assert (Hk : kind_ok from acc) by (eapply Hwf; exact EV). subst from.
    destruct acc as [u|c]; [|contradiction].
    destruct (account_sub (AccUser u) id amt) as [acc'|e|] eqn:ES; cbn [rbind] in Hm; try discriminate.
    injection Hm as <-. destruct (sub_user_ok _ _ _ _ ES) as ((i & Ei & Hi) & Hb & Hn & [u' ->]).
    set (from := AUser uf) in *.
    set (V1 := <[from := AccUser u']> V).
    set (dst := match V1 !! to with Some a => a | None => new_account digest to end).
    assert (Hdb : forall id', account_balance dst id' = bal V1 to id').
    { intros id'. unfold dst, bal. destruct (V1 !! to); [reflexivity|apply new_balance]. }
    assert (Hdn : u64v (account_nonce dst) = nonce V1 to).
    { unfold dst, nonce. destruct (V1 !! to); [reflexivity|apply new_nonce]. }
    assert (HV1 : forall a id', bal V1 a id' + (if decide (a = from /\ id' = id) then amt else 0) = bal V a id').
    { intros a id'. unfold V1. rewrite bal_insert. destruct (decide (a = from)) as [->|Hne].
      - specialize (Hb id'). unfold bal. rewrite EV.
        destruct (decide (id' = id)); [rewrite decide_True by auto|rewrite decide_False by tauto]; exact Hb.
      - rewrite decide_False by tauto. lia. }
    split; [exists u, i; auto|]. split; [|split; [|split; [|split; [|split; [|split]]]]].
    - intros a id'. rewrite bal_insert. specialize (HV1 a id'). destruct (decide (a = to)) as [->|Hne].
      + rewrite add_balance_eq, Hdb. destruct (decide (id' = id)).
        * rewrite (decide_True (P := to = to /\ id' = id)) by auto. lia.
        * rewrite (decide_False (P := to = to /\ id' = id)) by tauto. lia.
      + rewrite (decide_False (P := a = to /\ id' = id)) by tauto. lia.
    - intros a. rewrite nonce_insert. destruct (decide (a = to)) as [->|Hne].
      + rewrite add_nonce, Hdn. unfold V1. rewrite nonce_insert. destruct (decide (to = from)) as [->|]; [|reflexivity].
        unfold nonce. rewrite EV. rewrite Hn. reflexivity.
      + unfold V1. rewrite nonce_insert. destruct (decide (a = from)) as [->|]; [|reflexivity].
        unfold nonce. rewrite EV, Hn. reflexivity.
    - intros a H1 H2. rewrite lookup_insert_ne by congruence. unfold V1. rewrite lookup_insert_ne by congruence. reflexivity.
    - intros id'. pose proof (total_insert id' V1 to (account_add dst id amt)) as T1.
      pose proof (total_insert id' V from (AccUser u')) as T2. fold V1 in T2.
      rewrite add_balance_eq, Hdb in T1. specialize (Hb id'). unfold bal in T2. rewrite EV in T2.
      destruct (decide (id' = id)); lia.
    - apply map_Forall_insert_2.
      + apply kind_add. unfold dst. destruct (V1 !! to) as [a|] eqn:E; [|apply kind_new].
        unfold V1 in E. destruct (decide (to = from)) as [->|Hne].
        * rewrite lookup_insert in E. injection E as <-. exact I.
        * rewrite lookup_insert_ne in E by congruence. eapply Hwf; eauto.
      + apply map_Forall_insert_2; [exact I|exact Hwf].
    - intros a Ha. destruct (decide (a = to)) as [->|]; [rewrite lookup_insert; eauto|].
      rewrite lookup_insert_ne by congruence. unfold V1. destruct (decide (a = from)) as [->|]; [rewrite lookup_insert; eauto|].
      rewrite lookup_insert_ne by congruence. exact Ha.
    - intros a Ha. destruct (decide (a = to)) as [->|]; [right; reflexivity|left].
      rewrite lookup_insert_ne in Ha by congruence. unfold V1 in Ha.
      destruct (decide (a = from)) as [->|]; [eauto|]. rewrite lookup_insert_ne in Ha by congruence. exact Ha.
  Qed.

  Lemma move_ok_iff V from to id amt u :
    wf_accounts V -> from = AUser u ->
    (exists V', move digest V from to id amt = Ok V') <->
    (exists ua i, V !! from = Some (AccUser ua) /\ uac_assets ua !! id = Some i /\ amt <= ai_balance i).
  Proof.
    intros Hwf Hf. split.
    - intros [V' H]. eapply move_spec in H as (H & _); eauto.
    - intros (ua & i & E & Ei & Hi). unfold move. rewrite E. cbn. rewrite Ei.
      destruct (ai_balance i <? amt) eqn:L; [apply N.ltb_lt in L; lia|]. cbn. eauto.
  Qed.

  Lemma sender_user t : exists u, sender t = AUser u.
  Proof. destruct (sender_ok digest t) as (u & _ & -> & _). eauto. Qed.

  (** ** Effect of a transaction on plain maps *)
  (** Amount debited from / credited to [a] in asset [id] by [t] if it succeeds. *)
  Definition debit (t : signed_tx) (a : address) (id : hash) : N :=
    match rt_action (st_raw t) with
    | Transfer _ c => if decide (a = sender t /\ id = cr_asset_id c) then cr_amount c else 0
    | _ => 0
    end.
  Definition credit (t : signed_tx) (a : address) (id : hash) : N :=
    match rt_action (st_raw t) with
    | Transfer r c => if decide (a = AUser r /\ id = cr_asset_id c) then cr_amount c else 0
    | _ => 0
    end.

  Lemma run_tx_spec chain t V B V' B' r n :
    wf_accounts V -> run_tx digest chain t (sender t) V B = Ok (V', B', r, n) ->
    (forall a id, bal V' a id + debit t a id = bal V a id + credit t a id) /\
    (forall a, nonce V' a = nonce V a) /\
    (forall a, a <> sender t -> ~ is_receiver t a -> V' !! a = V !! a) /\
    (forall id, total id V' = total id V) /\ wf_accounts V' /\
    (forall a, is_Some (V !! a) -> is_Some (V' !! a)) /\
    (forall a, is_Some (V' !! a) -> is_Some (V !! a) \/ is_receiver t a) /\
    is_Some (V !! sender t) /\
    n <= fee_cycle (rt_fee (st_raw t)) /\
    (forall s u, r <> RFail s u) /\ supported t /\
    (forall id ast, B !! id = Some ast -> B' !! id = Some ast).
  Proof.
    intros Hwf Hr. unfold run_tx in Hr. unfold debit, credit, is_receiver, supported.
    destruct (rt_action (st_raw t)) as [to carry|? ? ?|code ct|? ? ? ?] eqn:Ea; try discriminate.
    - destruct (B !! cr_asset_id carry) as [ast|] eqn:EB; [|discriminate].
      destruct (move digest V (sender t) (AUser to) (cr_asset_id carry) (cr_amount carry)) as [V1|e|] eqn:Em;
        cbn [rbind] in Hr; try discriminate.
      destruct (_ <? 210) eqn:EL in Hr; [discriminate|]. injection Hr as -> -> <- <-.
      apply N.ltb_ge in EL.
      destruct (move_spec _ _ _ _ _ _ Hwf (sender_user t) Em) as ((u & i & Hu & _) & H1 & H2 & H3 & H4 & H5 & H6 & H7).
      repeat split; auto; try discriminate; try (rewrite Hu; eauto).
    - destruct ct; try discriminate.
      destruct (V !! sender t) as [acc|] eqn:EV; [|discriminate].
      destruct (contract_from_code_spec digest code (account_nonce acc) CtAsset) as (c & Ec & _ & _).
      rewrite Ec in Hr. cbn [map_err rbind] in Hr.
      destruct (B !! asset_id_of digest chain c) as [a0|] eqn:EB; [discriminate|].
      destruct (_ <? 2100) eqn:EL in Hr; [discriminate|]. injection Hr as -> <- <- <-.
      apply N.ltb_ge in EL. repeat split; auto; try discriminate; try (rewrite EV; eauto; fail).
      intros id ast Hid. rewrite lookup_insert_ne by congruence. exact Hid.
  Qed.

  Lemma run_tx_panic chain t V B :
    wf_accounts V -> run_tx digest chain t (sender t) V B = Panic <-> ~ supported t.
  Proof.
    intros Hwf. unfold run_tx, supported.
    destruct (rt_action (st_raw t)) as [to carry|? ? ?|code ct|? ? ? ?] eqn:Ea; try (split; tauto).
    - split; [|tauto]. destruct (B !! _); [|discriminate].
      unfold move. destruct (V !! sender t) as [acc|] eqn:EV; [|discriminate].
      assert (Hk : kind_ok (sender t) acc) by (eapply Hwf; exact EV).
      destruct (sender_user t) as [u Eu]. rewrite Eu in Hk. destruct acc as [ua|]; [|contradiction].
      rewrite sub_user_spec. destruct (uac_assets ua !! _); [|discriminate].
      destruct (_ <? _); [discriminate|]. cbn [rbind]. destruct (_ <? 210); discriminate.
    - destruct ct; try (split; tauto). split; [|tauto].
      destruct (V !! sender t) as [acc|] eqn:EV; [|discriminate].
      destruct (contract_from_code_spec digest code (account_nonce acc) CtAsset) as (c & Ec & _ & _).
      rewrite Ec. cbn [map_err rbind]. destruct (B !! _); [discriminate|].
      destruct (_ <? 2100); discriminate.
  Qed.

  (** ** Ledger invariant: the visible state is the durable state, with at most
      one nonce bump on top. *)
  Definition led_inv (L : ledger) : Prop :=
    wf_accounts (lg_durable L) /\
    (lg_view L = lg_durable L \/
     exists a acc, lg_durable L !! a = Some acc /\ lg_view L = <[a := account_inc acc]> (lg_durable L)).

  Lemma inv_view_wf L : led_inv L -> wf_accounts (lg_view L).
  Proof.
    intros [H [->|(a & acc & E & ->)]]; [exact H|]. apply map_Forall_insert_2; [|exact H].
    apply kind_inc. eapply H; eauto.
  Qed.
  Lemma inv_view_bal L a id : led_inv L -> bal (lg_view L) a id = bal (lg_durable L) a id.
  Proof.
    intros [H [->|(a' & acc & E & ->)]]; [reflexivity|]. rewrite bal_insert.
    destruct (decide (a = a')) as [->|]; [|reflexivity]. unfold bal. rewrite E. apply inc_balance.
  Qed.
  Lemma inv_view_total L id : led_inv L -> total id (lg_view L) = total id (lg_durable L).
  Proof.
    intros [H [->|(a' & acc & E & ->)]]; [reflexivity|]. apply total_bump, E.
  Qed.
  Lemma inv_view_dom L a : led_inv L -> is_Some (lg_view L !! a) <-> is_Some (lg_durable L !! a).
  Proof.
    intros [H [->|(a' & acc & E & ->)]]; [reflexivity|].
    destruct (decide (a = a')) as [->|].
    - rewrite lookup_insert, E. split; eauto.
    - rewrite lookup_insert_ne by congruence. reflexivity.
  Qed.

  Definition out_ok (out : res exec_err receipt_result) : bool :=
    match out with Ok _ => true | _ => false end.

  Lemma ledger_tx_spec chain L t out n L' :
    led_inv L -> ledger_tx digest chain L t (sender t) = Ok (out, n, L') ->
    led_inv L' /\ supported t /\ is_Some (lg_view L !! sender t) /\
    n <= fee_cycle (rt_fee (st_raw t)) /\
    (forall a id, bal (lg_durable L') a id + (if out_ok out then debit t a id else 0)
                = bal (lg_durable L) a id + (if out_ok out then credit t a id else 0)) /\
    (forall id, total id (lg_durable L') = total id (lg_durable L)) /\
    (forall a, is_Some (lg_durable L !! a) -> is_Some (lg_durable L' !! a)) /\
    (forall id ast, lg_assets L !! id = Some ast -> lg_assets L' !! id = Some ast) /\
    match out with
    | Ok r => run_tx digest chain t (sender t) (lg_view L) (lg_assets L)
              = Ok (lg_durable L', lg_assets L', r, n) /\ (forall s u, r <> RFail s u)
    | Err e => run_tx digest chain t (sender t) (lg_view L) (lg_assets L) = Err e /\
               n = wrap64 0 /\ lg_durable L' = lg_durable L /\ lg_assets L' = lg_assets L
    | Panic => False
    end /\
    (exists acc, lg_durable L' !! sender t = Some acc /\
                 lg_view L' = <[sender t := account_inc acc]> (lg_durable L')).
  Proof.
    intros Hinv Hl. unfold ledger_tx in Hl.
    pose proof (inv_view_wf _ Hinv) as Hwf.
    destruct (run_tx digest chain t (sender t) (lg_view L) (lg_assets L)) as [[[[V1 B1] r] n1]|e|] eqn:Er;
      cbn [rbind] in Hl; try discriminate.
    - destruct (V1 !! sender t) as [acc|] eqn:EV; [|discriminate]. injection Hl as <- <- <-.
      destruct (run_tx_spec _ _ _ _ _ _ _ _ Hwf Er) as (H1 & H2 & H3 & H4 & H5 & H6 & H7 & H8 & H9 & H10 & H11 & H12).
      cbn. split; [split; [exact H5|right; exists (sender t), acc; auto]|].
      split; [exact H11|]. split; [exact H8|]. split; [exact H9|].
      split; [intros a id; rewrite H1, (inv_view_bal _ _ _ Hinv); reflexivity|].
      split; [intros id; rewrite H4; apply inv_view_total, Hinv|].
      split; [intros a Ha; apply H6, (inv_view_dom _ _ Hinv), Ha|].
      split; [exact H12|]. split; [split; [reflexivity|exact H10]|]. eauto.
    - destruct (lg_durable L !! sender t) as [acc|] eqn:EV; [|discriminate]. injection Hl as <- <- <-.
      assert (Hsup : supported t).
      { destruct (decide (supported t)) as [|Hn]; [assumption|].
        apply (run_tx_panic chain t (lg_view L) (lg_assets L) Hwf) in Hn. congruence. }
      cbn. split; [split; [apply Hinv|right; exists (sender t), acc; auto]|].
      split; [exact Hsup|]. split; [apply (inv_view_dom _ _ Hinv); rewrite EV; eauto|].
      split; [change (u64v (wrap64 0)) with 0; lia|].
      split; [intros; lia|]. split; [reflexivity|]. split; [auto|]. split; [auto|].
      split; [auto|]. eauto.
  Qed.
End Props.
