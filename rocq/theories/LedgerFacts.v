(** * The ledger of a node along its histories (C90). *)
From Verif Require Import Base BaseFacts Hex Types Rlp RlpFacts FixedCodec FixedCodecFacts CodecProps StateAdapter StateAdapterFacts
  Executor ExecutorFacts ExecSpec ExecBlock ExecMore ExecOrder ExecChain Mempool Merkle Bincode ConsMsg Proto Wire Storage StorageSpec StorageFacts
  StorageProps Consensus ConsSpec ConsFacts ConsInv LedgerSpec.
From Coq Require Strings.String.
Import String.StringSyntax.
Delimit Scope string_scope with string.
Local Open Scope N_scope.

(** ** The keys of the two inner tries are RLP lists, those of the top trie are not. *)
Definition bare (m : gmap bytes bytes) : Prop := m !! ACCOUNT_CONTRACT_ADDRESS = None /\ m !! BANK_CONTRACT_ADDRESS = None.

Lemma address_not_native a : enc_address a <> ACCOUNT_CONTRACT_ADDRESS /\ enc_address a <> BANK_CONTRACT_ADDRESS.
Proof.
  pose proof (proj1 good_account_schema a) as H. cbn [sc_dkey sc_ekey account_schema] in H.
  split; intros E; rewrite E in H; vm_compute in H; discriminate.
Qed.
Lemma hash_not_native h : enc_hash h <> ACCOUNT_CONTRACT_ADDRESS /\ enc_hash h <> BANK_CONTRACT_ADDRESS.
Proof.
  pose proof (proj1 good_asset_schema h) as H. cbn [sc_dkey sc_ekey asset_schema] in H.
  split; intros E; rewrite E in H; vm_compute in H; discriminate.
Qed.

Lemma keys_bare {K V} `{Countable K} (s : StateAdapter.schema K V) (m : gmap K V) :
  good_schema s -> map_Forall (fun _ v => fits (sc_eval s v)) m ->
  (forall k, sc_ekey s k <> ACCOUNT_CONTRACT_ADDRESS /\ sc_ekey s k <> BANK_CONTRACT_ADDRESS) -> bare (enc_map s m).
Proof.
  intros Hg Hf Hk. destruct (image_enc_map s Hg m Hf) as (_ & I & _).
  split; apply eq_None_not_Some; intros Hs; apply I in Hs as [k E]; destruct (Hk k); congruence.
Qed.
Lemma accounts_bare (A : accounts) : map_Forall (fun _ v => fits (enc_account v)) A -> bare (enc_map account_schema A).
Proof. intros Hf. apply keys_bare; [exact good_account_schema|exact Hf|exact address_not_native]. Qed.
Lemma assets_bare (B : assets) : map_Forall (fun _ v => fits (enc_asset v)) B -> bare (enc_map asset_schema B).
Proof. intros Hf. apply keys_bare; [exact good_asset_schema|exact Hf|exact hash_not_native]. Qed.

Section Facts.
  Context (digest : bytes -> hash) (root_of : gmap bytes bytes -> hash) (show : exec_err -> rstring).

  (** ** The database after an execution *)
  Lemma exec_db os x ts resp x' : (forall n, order_ok (os n)) -> fresh x -> exec digest root_of show os x ts = Ok (resp, x') ->
    exists first, x_db x' = db_of root_of first (enc_map account_schema (committed x')) (enc_map asset_schema (committed_assets x'))
                              (x_trie x') (x_db x).
  Proof.
    intros Hos Hf. unfold exec.
    destruct (fresh_ledger x Hf) as [_ Hset].
    pose proof (exec_txs_ok digest show (fun n => os (S n)) x ts ltac:(intros; apply Hos) Hset) as H.
    destruct (exec_txs digest show (fun n => os (S n)) x ts) as [[rs x1]|e|]; cbn [rbind]; try discriminate.
    destruct (ledger_txs digest (x_chain_id x) (ledger_of x) ts) as [[outs L]|e'|]; try contradiction.
    destruct H as (_ & _ & _ & _ & Henv).
    destruct (pay_coinbase_spec digest x1 (all_cycles_used rs)) as (_ & _ & _ & Penv).
    set (x2 := pay_coinbase digest x1 _) in *. rewrite (commit_eq root_of (os O) x2 (Hos O)). cbn zeta.
    intros [= <- <-]. unfold committed, committed_assets. cbn [x_db x_trie x_acc x_bank ad_trie].
    exists (io_bank_first (os O)). rewrite (se_db _ _ Penv), (se_db _ _ Henv). reflexivity.
  Qed.
  Lemma genesis_db o1 o2 x g root x' : order_ok o1 -> order_ok o2 -> fresh x -> committed x = ∅ -> committed_assets x = ∅ ->
    create_genesis digest root_of o1 o2 x g = Ok (root, x') ->
    exists first, x_db x' = db_of root_of first (enc_map account_schema (committed x')) (enc_map asset_schema (committed_assets x'))
                              (x_trie x') (x_db x).
  Proof.
    intros H1 H2 Hf HA HB. unfold create_genesis.
    destruct (genesis_run digest g x Hf HA HB) as [(code & c & qs & x1 & ctx1 & _ & _ & -> & F & _)|(_ & e & s & ->)].
    2:{ destruct s; discriminate. }
    set (x2 := stash_all o1 x1).
    assert (E : x_db x2 = x_db x).
    { rewrite <- (fr_db _ _ F). unfold x2, stash_all. destruct (io_bank_first o1); reflexivity. }
    rewrite (commit_eq root_of o2 x2 H2). cbn zeta. intros [= <- <-].
    unfold committed, committed_assets. cbn [x_db x_trie x_acc x_bank ad_trie].
    exists (io_bank_first o2). rewrite E. reflexivity.
  Qed.

  (** ** What the database holds *)
  Context (chain : hash) (g : genesis) (code : bytes) (qs : list (address * list (hash * N))).
  Context (He : root_of ∅ = hash_from_empty digest).

  Definition ledger_ok (A : accounts) (B : assets) : Prop :=
    wf_accounts A /\ (forall id, total id A = allocated_total id qs) /\
    exists c, contract_from_code digest code (wrap64 0) CtAsset = Ok c /\
      B !! digest (sbytes chain ++ ca c) = Some (system_asset digest chain c (gn_system_token g)).
  Definition ledger_or_none (A : accounts) (B : assets) : Prop := ledger_ok A B \/ (A = ∅ /\ B = ∅).

  Definition top_of (d : gmap hash (gmap bytes bytes)) (T : gmap bytes bytes) : Prop :=
    exists A B, ExecChain.holds root_of d (root_of T) T A B /\
      map_Forall (fun _ v => fits (enc_account v)) A /\ map_Forall (fun _ v => fits (enc_asset v)) B /\ ledger_or_none A B.
  (** [ms]: every trie ever written. *)
  Definition db_ok (ms : list (gmap bytes bytes)) (d : gmap hash (gmap bytes bytes)) : Prop :=
    forall r m, d !! r = Some m -> r = root_of m /\ m ∈ ms /\ (bare m \/ top_of d m).

  Lemma holds_mono (d d' : gmap hash (gmap bytes bytes)) T A B : d ⊆ d' -> ExecChain.holds root_of d (root_of T) T A B -> ExecChain.holds root_of d' (root_of T) T A B.
  Proof.
    intros Hs (E & H1 & H2 & H3 & H4 & H5). unfold stored in *. split; [exact E|].
    split; [eapply lookup_weaken; eauto|]. split; [eapply lookup_weaken; eauto|]. split; [eapply lookup_weaken; eauto|]. auto.
  Qed.
  Lemma top_of_mono (d d' : gmap hash (gmap bytes bytes)) T : d ⊆ d' -> top_of d T -> top_of d' T.
  Proof. intros Hs (A & B & H & R). exists A, B. split; [eapply holds_mono; eauto|exact R]. Qed.

  Lemma insert_sub (ms : list (gmap bytes bytes)) (d : gmap hash (gmap bytes bytes)) (m : gmap bytes bytes) : clash_free root_of ms -> m ∈ ms ->
    (forall r m', d !! r = Some m' -> r = root_of m' /\ m' ∈ ms) -> d ⊆ <[root_of m := m]> d.
  Proof.
    intros Hc Hm Hd. apply map_subseteq_spec. intros r m' Hr. destruct (Hd _ _ Hr) as [-> Hm'].
    destruct (decide (root_of m = root_of m')) as [E|E].
    - rewrite (Hc m m' Hm Hm' E). apply lookup_insert.
    - rewrite lookup_insert_ne by exact E. exact Hr.
  Qed.
  Lemma insert_in (ms : list (gmap bytes bytes)) (d : gmap hash (gmap bytes bytes)) (m : gmap bytes bytes) : m ∈ ms -> (forall r m', d !! r = Some m' -> r = root_of m' /\ m' ∈ ms) ->
    forall r m', <[root_of m := m]> d !! r = Some m' -> r = root_of m' /\ m' ∈ ms.
  Proof.
    intros Hm Hd r m'. rewrite lookup_insert_Some. intros [[<- <-]|[_ Hr]]; [auto|apply Hd, Hr].
  Qed.

  Lemma insert_other (d : gmap hash (gmap bytes bytes)) (m m' : gmap bytes bytes) : root_of m' <> root_of m ->
    <[root_of m' := m']> d !! root_of m = Some m -> d !! root_of m = Some m.
  Proof. intros E. rewrite lookup_insert_ne by exact E. auto. Qed.

  Lemma db_of_ok (ms : list (gmap bytes bytes)) (first : bool) (d : gmap hash (gmap bytes bytes)) T A B : clash_free root_of ms ->
    T ∈ ms -> enc_map account_schema A ∈ ms -> enc_map asset_schema B ∈ ms ->
    map_Forall (fun _ v => fits (enc_account v)) A -> map_Forall (fun _ v => fits (enc_asset v)) B -> ledger_or_none A B ->
    db_ok ms d ->
    let d' : gmap hash (gmap bytes bytes) := db_of root_of first (enc_map account_schema A) (enc_map asset_schema B) T d in
    ExecChain.holds root_of d' (root_of T) T A B -> d ⊆ d' /\ db_ok ms d'.
  Proof.
    intros Hc IT IA IB FA FB HL Hd d' Hh.
    set (eA := enc_map account_schema A) in *. set (eB := enc_map asset_schema B) in *.
    assert (forall r m', d !! r = Some m' -> r = root_of m' /\ m' ∈ ms) as Hd0.
    { intros r m' Hr. destruct (Hd r m' Hr) as (? & ? & _). auto. }
    assert (d ⊆ d' /\ forall r m, d' !! r = Some m -> r = root_of m /\ m ∈ ms) as [Hs Hd'].
    { unfold d', db_of. destruct first.
      - pose proof (insert_in ms d eB IB Hd0) as J1. pose proof (insert_in ms _ eA IA J1) as J2.
        split; [|exact (insert_in ms _ T IT J2)].
        etransitivity; [apply (insert_sub ms d eB Hc IB Hd0)|]. etransitivity; [apply (insert_sub ms _ eA Hc IA J1)|].
        apply (insert_sub ms _ T Hc IT J2).
      - pose proof (insert_in ms d eA IA Hd0) as J1. pose proof (insert_in ms _ eB IB J1) as J2.
        split; [|exact (insert_in ms _ T IT J2)].
        etransitivity; [apply (insert_sub ms d eA Hc IA Hd0)|]. etransitivity; [apply (insert_sub ms _ eB Hc IB J1)|].
        apply (insert_sub ms _ T Hc IT J2). }
    split; [exact Hs|]. intros r m Hr. destruct (Hd' r m Hr) as [-> Hm]. split; [reflexivity|]. split; [exact Hm|].
    destruct (decide (m = T)) as [->|NT].
    { right. exists A, B. auto. }
    destruct (decide (m = eA)) as [->|NA]; [left; apply accounts_bare, FA|].
    destruct (decide (m = eB)) as [->|NB]; [left; apply assets_bare, FB|].
    assert (d !! root_of m = Some m) as Hr0.
    { assert (forall m', m' ∈ ms -> m <> m' -> root_of m' <> root_of m) as Hne.
      { intros m' Hm' Hn E. apply Hn. symmetry. apply Hc; auto. }
      revert Hr. unfold d', db_of. intros Hr. apply insert_other in Hr; [|apply Hne; auto].
      destruct first; (apply insert_other in Hr; [|apply Hne; auto]); (apply insert_other in Hr; [|apply Hne; auto]); exact Hr. }
    destruct (Hd _ _ Hr0) as (_ & _ & [Hb|Ht]); [left; exact Hb|right; eapply top_of_mono; eauto].
  Qed.

  (** ** Opening *)
  Lemma open_bare ch T d e p cb : bare T ->
    (let? acc := gen_contract_state account_schema T ACCOUNT_CONTRACT_ADDRESS d in
     let? bank := gen_contract_state asset_schema T BANK_CONTRACT_ADDRESS d in
     Ok (MkExec ch e p cb T acc bank d)) = Ok (MkExec ch e p cb T (ad_new ∅) (ad_new ∅) d).
  Proof.
    intros [H1 H2]. unfold gen_contract_state. rewrite H1, H2. reflexivity.
  Qed.

  Lemma trie_from_ok (r : hash) (d : gmap hash (gmap bytes bytes)) T : trie_from r d = Ok T -> d !! r = Some T.
  Proof.
    change (trie_from r d) with (ok_or (d !! r) EInvalidStateRoot). destruct (d !! r); cbn; [congruence|discriminate].
  Qed.

  Lemma open_cases (ms : list (gmap bytes bytes)) (d : gmap hash (gmap bytes bytes)) ch r e p cb y : clash_free root_of (∅ :: ms) -> db_ok ms d ->
    Executor.from_root digest ch r d e p cb = Ok y ->
    fresh y /\ x_chain_id y = ch /\ x_db y = d /\ ledger_or_none (committed y) (committed_assets y).
  Proof.
    intros Hc Hd. unfold Executor.from_root. destruct (decide (r = hash_from_empty digest)) as [E|E]; cbn [rbind].
    { rewrite open_bare by (split; apply lookup_empty). intros [= <-]. unfold fresh. cbn. split; [auto|]. split; [auto|].
      split; [auto|]. right. auto. }
    destruct (trie_from r d) as [T|x|] eqn:Ef; cbn [rbind]; [|discriminate..]. pose proof (trie_from_ok _ _ _ Ef) as Er.
    destruct (Hd _ _ Er) as (-> & Hm & [Hb|(A & B & H & FA & FB & HL)]).
    { rewrite open_bare by exact Hb. intros [= <-]. unfold fresh. cbn. split; [auto|]. split; [auto|].
      split; [auto|]. right. auto. }
    intros Hy. pose proof (from_root_holds digest root_of ch (root_of T) d e p cb T A B He) as F.
    unfold Executor.from_root in F. destruct (decide (root_of T = hash_from_empty digest)) as [E'|_]; [contradiction|].
    rewrite Ef in F. cbn [rbind] in F. rewrite F in Hy; [|..|exact FA|exact FB|exact H].
    - injection Hy as <-. unfold fresh. cbn. split; [auto|]. split; [auto|]. split; [auto|]. exact HL.
    - eapply clash_sub; [|exact Hc]. intros m' Hm'. apply elem_of_cons in Hm' as [->|Hm']; [left|].
      apply elem_of_list_singleton in Hm' as ->. right. exact Hm.
  Qed.

  (** ** Executing *)
  Lemma exec_empty os x ts resp x' : (forall n, order_ok (os n)) -> fresh x -> committed x = ∅ ->
    exec digest root_of show os x ts = Ok (resp, x') -> ts = [].
  Proof.
    intros Hos Hf HA Hx. destruct ts as [|t ts]; [reflexivity|]. exfalso.
    assert (Hwf : wf_accounts (committed x)) by (rewrite HA; intros ? ? H; rewrite lookup_empty in H; discriminate).
    destruct (exec digest root_of show os x []) as [[r0 x0]|e|] eqn:E0.
    2-3: unfold exec in E0; cbn [exec_txs rbind] in E0; destruct (commit root_of (os O) _); discriminate.
    assert (HA0 : committed x0 = ∅).
    { apply map_eq. intros a. rewrite (exec_untouched digest root_of show os x [] r0 x0 a Hos Hf Hwf E0 (Forall_nil_2 _)).
      rewrite HA. reflexivity. }
    destruct (decide (supported t)) as [Hs|Hs].
    - destruct (user_from_pubkey_spec digest (st_pubkey t)) as (u & _ & Hu).
      assert (exec digest root_of show os x (t :: ts) = Err (EAccountNotFound (AUser u))) as E; [|congruence].
      apply exec_err_iff; auto. exists [], t, ts, r0, x0, (AUser u).
      split; [reflexivity|]. split; [exact E0|]. split; [exact Hs|]. split; [|split; [rewrite HA0; apply lookup_empty|reflexivity]].
      exact Hu.
    - assert (exec digest root_of show os x (t :: ts) = Panic) as E; [|congruence].
      apply exec_panic_iff; auto. exists [], t, ts, r0, x0. auto.
  Qed.

  Lemma exec_ledger os x ts resp x' : (forall n, order_ok (os n)) -> fresh x -> x_chain_id x = chain ->
    ledger_or_none (committed x) (committed_assets x) -> exec digest root_of show os x ts = Ok (resp, x') ->
    ledger_or_none (committed x') (committed_assets x') /\
    (ledger_ok (committed x) (committed_assets x) -> ledger_ok (committed x') (committed_assets x')).
  Proof.
    intros Hos Hf Hch HL Hx.
    assert (G : ledger_ok (committed x) (committed_assets x) -> ledger_ok (committed x') (committed_assets x')).
    { intros (W & T & c & Ec & S1). split; [eapply exec_wf; eauto|].
      split; [intros id; rewrite (exec_total digest root_of show _ _ _ _ _ Hos Hf W Hx); apply T|].
      exists c. split; [exact Ec|]. exact (exec_assets_kept digest root_of show _ _ _ _ _ _ _ Hos Hf W Hx S1). }
    split; [|exact G]. destruct HL as [HL|[HA HB]]; [left; auto|]. right.
    assert (ts = []) as -> by (eapply exec_empty; eauto).
    assert (Hwf : wf_accounts (committed x)) by (rewrite HA; intros ? ? H; rewrite lookup_empty in H; discriminate).
    split; apply map_eq; intros a.
    - rewrite (exec_untouched digest root_of show os x [] resp x' a Hos Hf Hwf Hx (Forall_nil_2 _)). rewrite HA. reflexivity.
    - rewrite lookup_empty. destruct (committed_assets x' !! a) as [ast|] eqn:Ea; [|reflexivity]. exfalso.
      destruct (exec_assets digest root_of show os x [] resp x' Hos Hf Hwf Hx) as [H1 _].
      destruct (H1 _ _ Ea) as [H|(i & rr & c & ty & H & _)].
      + rewrite HB, lookup_empty in H. discriminate.
      + assert (er_receipts resp = []) as E.
        { unfold exec in Hx; cbn [exec_txs rbind] in Hx. destruct (commit root_of (os O) _). injection Hx as <- <-. reflexivity. }
        rewrite E in H. rewrite lookup_nil in H. discriminate.
  Qed.
End Facts.
