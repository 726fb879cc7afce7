(** * Concrete executions with Keccak-256: refutations of C18, C19, C20, C25
    and non-vacuity of the hypotheses of PropExecutor.v. *)
From Verif Require Import Base BaseFacts Hex Types Rlp RlpFacts FixedCodec FixedCodecFacts CodecProps
  StateAdapter StateAdapterFacts Executor ExecSpec AdapterProps ExecutorFacts ExecProps ExecBlock ExecMore
  ExecReward ExecOrder ExecChain Keccak PropExecutor.
From Coq Require Strings.String.
Import String.StringSyntax.
Delimit Scope string_scope with string.
Local Open Scope N_scope.

(** A stand-in for the Merkle root, with the right root for the empty trie. *)
Definition rootx (m : gmap bytes bytes) : hash :=
  match map_to_list m with
  | [] => hash_from_empty keccak
  | l => keccak (concat (map (fun kv => kv.1 ++ kv.2) l))
  end.
Definition showx (e : exec_err) : rstring :=
  match e with
  | EOutOfCycles => RString (ascii "out of cycles"%string) eq_refl
  | _ => RString (ascii "error"%string) eq_refl
  end.
Definition canons : nat -> iter_order := fun _ => canon_order.
Lemma canons_ok : forall n, order_ok (canons n).
Proof. intros n. split; reflexivity. Qed.

Definition user_of (pubkey : bytes) : user_address :=
  match user_from_pubkey keccak pubkey with Ok u => u | _ => UA (repeat x10 21) eq_refl end.
Definition alice := user_of [x01]. Definition bob := user_of [x02]. Definition carol := user_of [x03].
Definition tok : hash := keccak [x0a].
Definition chainx : hash := keccak [x0b].
Definition tokc : contract_address := CA (x20 :: repeat x07 20) eq_refl.

Definition x0 : executor :=
  MkExec chainx (wrap64 1) (wrap64 1) (AUser carol) ∅
    (ad_new {[ AUser alice := AccUser (MkUserAccount (wrap64 0) {[ tok := MkAssetInfo 1000 ∅ ]}) ]})
    (ad_new {[ tok := MkAsset tok SYSTEM_TOKEN ST 1000 tokc (hash_from_empty keccak) ]}) ∅.

Lemma x0_fresh : fresh x0.
Proof. repeat split. Qed.
Lemma x0_wf : wf_accounts (committed x0).
Proof. apply map_Forall_singleton. exact I. Qed.

Definition mktx (pubkey : bytes) (limit : N) (a : tx_action) : signed_tx :=
  MkSigned (MkRaw chainx (keccak pubkey) (wrap64 20) (MkFee tok (wrap64 limit)) a) (keccak (x00 :: pubkey)) pubkey [x05].
Definition pay (limit n : N) : signed_tx := mktx [x01] limit (Transfer bob (MkCarrying tok n)).
Definition deploy : signed_tx := mktx [x01] 5000 (Deploy [x60; x61] CtAsset).

Notation run := (exec keccak rootx showx canons x0).

(** Turning a computed check on a result into an existential. *)
Lemma check_ok {E A} (r : res E A) (f : A -> bool) :
  match r with Ok a => f a | _ => false end = true -> exists a, r = Ok a /\ f a = true.
Proof. destruct r; try discriminate. eauto. Qed.

Fixpoint nlist_eqb (l k : list N) : bool :=
  match l, k with [], [] => true | x :: l', y :: k' => (x =? y) && nlist_eqb l' k' | _, _ => false end.
Lemma nlist_eqb_eq l k : nlist_eqb l k = true -> l = k.
Proof.
  revert k. induction l as [|x l IH]; intros [|y k]; try discriminate; [reflexivity|].
  cbn. intros H. apply andb_true_iff in H as [H1 H2]. apply N.eqb_eq in H1. f_equal; auto.
Qed.
Ltac checks := repeat match goal with H : _ && _ = true |- _ => apply andb_true_iff in H as [? ?] end;
  repeat match goal with H : (_ =? _) = true |- _ => apply N.eqb_eq in H end;
  repeat match goal with H : nlist_eqb _ _ = true |- _ => apply nlist_eqb_eq in H end.

(** ** C18: one successful transfer paying 210 in [tok]; the committed
    balance of the coinbase is still 0, the live view shows 210. *)
Theorem C18_coinbase_reward_refuted : exists x ts resp x',
  fresh x /\ wf_accounts (committed x) /\ exec keccak rootx showx canons x ts = Ok (resp, x') /\
  forallb succeeded (er_receipts resp) = true /\
  fees_in tok (er_all_cycles_used resp) = 210 /\
  visible_balance x' (x_coinbase x) tok = 210 /\
  bal (committed x') (x_coinbase x) tok = 0.
Proof.
  destruct (check_ok (run [pay 1000 10]) (fun '(resp, x') =>
    forallb succeeded (er_receipts resp) && (fees_in tok (er_all_cycles_used resp) =? 210)
    && (visible_balance x' (AUser carol) tok =? 210) && (bal (committed x') (AUser carol) tok =? 0))
    ltac:(vm_compute; reflexivity)) as ([resp x'] & E & H).
  apply andb_true_iff in H as [H H4]. apply andb_true_iff in H as [H H3]. apply andb_true_iff in H as [H1 H2].
  exists x0, [pay 1000 10], resp, x'. split; [exact x0_fresh|]. split; [exact x0_wf|]. split; [exact E|].
  split; [exact H1|]. split; [apply N.eqb_eq, H2|]. split; [apply N.eqb_eq, H3|apply N.eqb_eq, H4].
Qed.
Print Assumptions C18_coinbase_reward_refuted.

(** ** C19: one transaction of alice executes and succeeds; her committed
    nonce does not move. *)
Theorem C19_nonce_counts_transactions_refuted : exists x t resp x' a,
  fresh x /\ wf_accounts (committed x) /\ is_sender keccak t a /\
  exec keccak rootx showx canons x [t] = Ok (resp, x') /\
  forallb succeeded (er_receipts resp) = true /\
  nonce (committed x) a = 0 /\ nonce (committed x') a = 0.
Proof.
  destruct (check_ok (run [pay 1000 10]) (fun '(resp, x') =>
    forallb succeeded (er_receipts resp) && (nonce (committed x') (AUser alice) =? 0))
    ltac:(vm_compute; reflexivity)) as ([resp x'] & E & H).
  apply andb_true_iff in H as [H1 H2].
  exists x0, (pay 1000 10), resp, x', (AUser alice). split; [exact x0_fresh|]. split; [exact x0_wf|].
  split; [vm_compute; reflexivity|]. split; [exact E|]. split; [exact H1|]. split; [vm_compute; reflexivity|apply N.eqb_eq, H2].
Qed.
Print Assumptions C19_nonce_counts_transactions_refuted.

(** ** C20: a good transaction in a block with one of an unknown sender, or
    with an Approve, is not executed: the whole block errs or panics. *)
Theorem C20_one_transaction_aborts_block_refuted :
  (exists x t bad e, fresh x /\ wf_accounts (committed x) /\
     is_ok (exec keccak rootx showx canons x [t]) = true /\ supported bad /\
     exec keccak rootx showx canons x [t; bad] = Err e) /\
  (exists x t bad, fresh x /\ wf_accounts (committed x) /\
     is_ok (exec keccak rootx showx canons x [t]) = true /\
     exec keccak rootx showx canons x [t; bad] = Panic).
Proof.
  split.
  - exists x0, (pay 1000 10), (mktx [x09] 1000 (Transfer bob (MkCarrying tok 1))), (EAccountNotFound (AUser (user_of [x09]))).
    split; [exact x0_fresh|]. split; [exact x0_wf|]. split; [vm_compute; reflexivity|]. split; [exact I|].
    vm_compute. reflexivity.
  - exists x0, (pay 1000 10), (mktx [x01] 1000 (Approve tokc tok 5)).
    split; [exact x0_fresh|]. split; [exact x0_wf|]. split; vm_compute; reflexivity.
Qed.
Print Assumptions C20_one_transaction_aborts_block_refuted.

(** ** C25: the fee of a successful transaction is charged to nobody: alice
    loses the amount sent and nothing else. *)
Theorem C25_sender_pays_fee_refuted : exists x t resp x' a,
  fresh x /\ wf_accounts (committed x) /\ is_sender keccak t a /\
  exec keccak rootx showx canons x [t] = Ok (resp, x') /\
  forallb succeeded (er_receipts resp) = true /\
  map (fun r => u64v (fee_cycle (rc_cycles_used r))) (er_receipts resp) = [210] /\
  bal (committed x) a tok = 1000 /\ amount_sent keccak t a tok = 10 /\
  bal (committed x') a tok = 990 /\ visible_balance x' a tok = 990.
Proof.
  destruct (check_ok (run [pay 1000 10]) (fun '(resp, x') =>
    forallb succeeded (er_receipts resp)
    && nlist_eqb (map (fun r => u64v (fee_cycle (rc_cycles_used r))) (er_receipts resp)) [210]
    && (bal (committed x') (AUser alice) tok =? 990) && (visible_balance x' (AUser alice) tok =? 990))
    ltac:(vm_compute; reflexivity)) as ([resp x'] & E & H).
  apply andb_true_iff in H as [H H4]. apply andb_true_iff in H as [H H3]. apply andb_true_iff in H as [H1 H2].
  apply nlist_eqb_eq in H2.
  exists x0, (pay 1000 10), resp, x', (AUser alice). split; [exact x0_fresh|]. split; [exact x0_wf|].
  split; [vm_compute; reflexivity|]. split; [exact E|]. split; [exact H1|]. split; [exact H2|].
  split; [vm_compute; reflexivity|]. split; [vm_compute; reflexivity|]. split; [apply N.eqb_eq, H3|apply N.eqb_eq, H4].
Qed.
Print Assumptions C25_sender_pays_fee_refuted.

(** ** Non-vacuity: a block with a success, a failure after the balances were
    already modified (cycle limit 100), a self transfer and a deploy. *)
Definition block : list signed_tx :=
  [pay 1000 10; pay 100 20; mktx [x01] 300 (Transfer alice (MkCarrying tok 990)); deploy; pay 1000 991].
Definition block_good (p : exec_resp * executor) : bool :=
  let (resp, x') := p in
  nlist_eqb (map (fun r => if succeeded r then 1 else 0) (er_receipts resp)) [1; 0; 1; 1; 0]
  && (bal (committed x') (AUser alice) tok =? 990) && (bal (committed x') (AUser bob) tok =? 10)
  && (nonce (committed x') (AUser alice) =? 2) && (total tok (committed x') =? 1000)
  && (length (map_to_list (committed_assets x')) =? 2)%nat
  && nlist_eqb (map (fun f => u64v (fee_cycle f)) (er_all_cycles_used resp)) [2520].
Lemma block_check : match run block with Ok a => block_good a | _ => false end = true.
Proof. vm_compute. reflexivity. Qed.
Example exec_nonvacuous : exists resp x',
  run block = Ok (resp, x') /\
  map (fun r => if succeeded r then 1 else 0) (er_receipts resp) = [1; 0; 1; 1; 0] /\
  bal (committed x') (AUser alice) tok = 990 /\ bal (committed x') (AUser bob) tok = 10 /\
  nonce (committed x') (AUser alice) = 2 /\
  total tok (committed x') = 1000 /\
  length (map_to_list (committed_assets x')) = 2%nat /\
  map (fun f => u64v (fee_cycle f)) (er_all_cycles_used resp) = [2520].
Proof.
  assert (Hc := check_ok (run block) block_good block_check). destruct Hc as ([resp x'] & E & H). unfold block_good in H. checks.
  exists resp, x'. split; [exact E|]. repeat split; try assumption. apply Nat.eqb_eq. assumption.
Qed.

(** All hypotheses of the block theorems hold of [x0] and [block]. *)
Example block_hypotheses : (forall n, order_ok (canons n)) /\ fresh x0 /\ wf_accounts (committed x0) /\
  is_ok (run block) = true /\ midblock keccak showx x0 /\
  Forall (fun t => supported t /\ exists a, is_sender keccak t a /\ is_Some (committed x0 !! a)) block.
Proof.
  split; [exact canons_ok|]. split; [exact x0_fresh|]. split; [exact x0_wf|]. split; [vm_compute; reflexivity|].
  split; [apply fresh_mid; [exact x0_fresh|exact x0_wf]|].
  assert (H : is_Some (committed x0 !! AUser alice)).
  { exists (AccUser (MkUserAccount (wrap64 0) {[ tok := MkAssetInfo 1000 ∅ ]})). vm_compute. reflexivity. }
  repeat (constructor; [split; [exact I|]; exists (AUser alice); split; [vm_compute; reflexivity|exact H]|]). constructor.
Qed.

(** C15: a sequence of adapter operations meeting the hypotheses. *)
Example adapter_nonvacuous :
  let acc n := AccUser (MkUserAccount (wrap64 n) ∅) in
  let l := [OInsert (AUser alice) (acc 1); OStash map_to_list; OInsert (AUser bob) (acc 2); ORevert;
            OInsert (AUser alice) (acc 3); OCommit map_to_list] in
  Forall (op_ok account_schema) l /\
  let w := spec_run (MkSaves ∅ ∅ ∅) l in
  sv_now w !! AUser alice = Some (acc 3) /\ sv_committed w !! AUser alice = Some (acc 1) /\
  sv_now w !! AUser bob = None.
Proof.
  cbn zeta. split.
  - repeat constructor; try (intros m; reflexivity); vm_compute; reflexivity.
  - vm_compute. auto.
Qed.

(** ** Genesis: the system token, alice with two assets and bob listed twice. *)
Definition str (b : bytes) : rstring := match decide (utf8 b = true) with left e => RString b e | right _ => lit [] eq_refl end.
Definition hexs (b : bytes) : rstring := str (hex_encode b).
Definition stok : hash :=
  match contract_from_code keccak [x60; x61] (wrap64 0) CtAsset with
  | Ok c => keccak (sbytes chainx ++ ca c) | _ => tok end.
Definition gen0 : genesis :=
  MkGenesis (wrap64 0) (str (ascii "prev"%string))
    (MkGToken (str (ascii "6061"%string)) (str (ascii "Muta"%string)) (str (ascii "MT"%string)) (wrap64 32))
    [MkGAlloc (hexs (ua alice)) [MkGAsset (hexs (sbytes stok)) (str (ascii "03e8"%string)); MkGAsset (hexs (sbytes chainx)) (str (ascii "05"%string))];
     MkGAlloc (hexs (ua bob)) [MkGAsset (hexs (sbytes stok)) (str (ascii "01"%string))];
     MkGAlloc (hexs (ua carol)) [];
     MkGAlloc (hexs (ua bob)) [MkGAsset (hexs (sbytes stok)) (str (ascii "02"%string))]].
Definition gen0_allocs : list (address * list (hash * N)) :=
  [(AUser alice, [(stok, 1000); (chainx, 5)]); (AUser bob, [(stok, 1)]); (AUser carol, []); (AUser bob, [(stok, 2)])].
Definition xe : executor := MkExec chainx (wrap64 0) (wrap64 1) (AUser carol) ∅ (ad_new ∅) (ad_new ∅) ∅.

Lemma hash_check (r : res types_err hash) (h : hash) :
  match r with Ok k => bytes_eqb (sbytes k) (sbytes h) | _ => false end = true -> r = Ok h.
Proof. destruct r; try discriminate. intros H. f_equal. apply sized_eq, bytes_eqb_eq, H. Qed.
Lemma addr_check {E} (r : res E address) (h : address) :
  match r with Ok k => bytes_eqb (address_bytes k) (address_bytes h) | _ => false end = true -> r = Ok h.
Proof. destruct r; try discriminate. intros H. f_equal. apply address_bytes_inj, bytes_eqb_eq, H. Qed.

Example gen0_parsed : parsed_genesis gen0 [x60; x61] gen0_allocs.
Proof.
  split; [vm_compute; reflexivity|]. unfold gen0, gen0_allocs. cbn [gn_state_alloc].
  repeat (constructor; [split; [apply addr_check; vm_compute; reflexivity|];
    cbn [gl_assets snd]; repeat (constructor; [split; [apply hash_check; vm_compute; reflexivity|]; 
      eexists; split; [vm_compute; reflexivity|vm_compute; reflexivity]|]); constructor|]). constructor.
Qed.

(** Genesis, a foreign trie, then a block executed by a reopened executor. *)
Definition kv_eqb (p q : bytes * bytes) : bool := bytes_eqb p.1 q.1 && bytes_eqb p.2 q.2.
Fixpoint kvs_eqb (l k : list (bytes * bytes)) : bool :=
  match l, k with [], [] => true | p :: l', q :: k' => kv_eqb p q && kvs_eqb l' k' | _, _ => false end.
Lemma kvs_eqb_eq l k : kvs_eqb l k = true -> l = k.
Proof.
  revert k. induction l as [|[p1 p2] l IH]; intros [|[q1 q2] k]; try discriminate; [reflexivity|].
  cbn. unfold kv_eqb. cbn. intros H. apply andb_true_iff in H as [H H3]. apply andb_true_iff in H as [H1 H2].
  apply bytes_eqb_eq in H1, H2. subst. f_equal. auto.
Qed.
Definition clash_check (l : list (gmap bytes bytes)) : bool :=
  let k := map (fun m => (sbytes (rootx m), map_to_list m)) l in
  forallb (fun p => forallb (fun q => if bytes_eqb p.1 q.1 then kvs_eqb p.2 q.2 else true) k) k.
Lemma clash_check_ok l : clash_check l = true -> clash_free rootx l.
Proof.
  unfold clash_check. cbn zeta. rewrite forallb_forall. intros H m1 m2 H1 H2 E.
  specialize (H (sbytes (rootx m1), map_to_list m1)). rewrite forallb_forall in H.
  specialize (H ltac:(apply (in_map (fun m => (sbytes (rootx m), map_to_list m))), elem_of_list_In, H1)
                (sbytes (rootx m2), map_to_list m2)
                ltac:(apply (in_map (fun m => (sbytes (rootx m), map_to_list m))), elem_of_list_In, H2)).
  cbn [fst snd] in H. rewrite E in H.
  destruct (bytes_eqb (sbytes (rootx m2)) (sbytes (rootx m2))) eqn:Eb.
  - apply kvs_eqb_eq in H. apply map_to_list_inj. rewrite H. reflexivity.
  - exfalso. assert (T : bytes_eqb (sbytes (rootx m2)) (sbytes (rootx m2)) = true) by (apply bytes_eqb_eq; reflexivity).
    congruence.
Qed.
Definition fits_check (x : executor) : bool :=
  forallb (fun kv => blen (enc_account kv.2) <? two64) (map_to_list (committed x)) &&
  forallb (fun kv => blen (enc_asset kv.2) <? two64) (map_to_list (committed_assets x)).
Lemma fits_check_ok x : fits_check x = true -> state_fits x.
Proof.
  unfold fits_check. intros H. apply andb_true_iff in H as [H1 H2]. rewrite forallb_forall in H1, H2.
  split; intros k v Hk; apply N.ltb_lt.
  - apply (H1 (k, v)). apply elem_of_list_In, elem_of_map_to_list, Hk.
  - apply (H2 (k, v)). apply elem_of_list_In, elem_of_map_to_list, Hk.
Qed.

Definition foreign : gmap bytes bytes := {[ [x01] := [x02] ]}.
Definition spay (limit n : N) : signed_tx := mktx [x01] limit (Transfer bob (MkCarrying stok n)).
Definition block1 : list signed_tx := [spay 1000 10; spay 1000 5; deploy; spay 100 20].
Definition gen_run : res exec_err (hash * executor) := create_genesis keccak rootx canon_order canon_order xe gen0.
Definition hist_ok (x1 x3 : executor) (resp : exec_resp) : bool :=
  fits_check x1 && fits_check x3 && clash_check (∅ :: tries_of x3 ++ foreign :: tries_of x1)
  && nlist_eqb (map (fun r => if succeeded r then 1 else 0) (er_receipts resp)) [1; 1; 1; 0]
  && (bal (committed x3) (AUser bob) stok =? 18) && (nonce (committed x3) (AUser alice) =? 2)
  && (total stok (committed x3) =? 1003).
Definition after_block (x1 : executor) (r : res exec_err (exec_resp * executor)) : bool :=
  match r with Ok p => hist_ok x1 p.2 p.1 | _ => false end.
Definition after_open (x1 : executor) (r : res exec_err executor) : bool :=
  match r with Ok x2 => after_block x1 (exec keccak rootx showx canons x2 block1) | _ => false end.
Definition after_genesis (r : res exec_err (hash * executor)) : bool :=
  match r with
  | Ok p => after_open p.2 (from_root keccak chainx p.1 (snd (trie_commit rootx foreign (x_db p.2)))
                              (wrap64 1) (wrap64 1) (AUser carol))
  | _ => false
  end.
Lemma hist_check : after_genesis gen_run = true.
Proof. vm_compute. reflexivity. Qed.

(** C10 (histories), C22, C24: all hypotheses hold of a genesis, a trie of
    another owner and a block of three successes and a failure. *)
Example history_nonvacuous : exists (d : trie_db) (r : hash) (l : list (gmap bytes bytes)),
  (rootx ∅ = hash_from_empty keccak) /\ parsed_genesis gen0 [x60; x61] gen0_allocs /\ history keccak rootx showx gen0 d r l /\ clash_free rootx (∅ :: l).
Proof.
  assert (Hg := hist_check). unfold after_genesis in Hg.
  destruct gen_run as [[r x1]|e|] eqn:Eg; [|discriminate Hg|discriminate Hg]. cbn [fst snd] in Hg. unfold after_open in Hg.
  destruct (from_root _ _ _ _ _ _ _) as [x2|e|] eqn:Eo; [|discriminate Hg|discriminate Hg]. unfold after_block in Hg.
  destruct (exec _ _ _ _ _ _) as [[resp x3]|e|] eqn:Ex; [|discriminate Hg|discriminate Hg]. cbn [fst snd] in Hg. unfold hist_ok in Hg.
  repeat match goal with H : _ && _ = true |- _ => apply andb_true_iff in H as [? ?] end.
  match goal with H : clash_check _ = true |- _ => apply clash_check_ok in H end.
  repeat match goal with H : fits_check _ = true |- _ => apply fits_check_ok in H end.
  exists (x_db x3), (er_state_root resp), (tries_of x3 ++ foreign :: tries_of x1).
  split; [apply sized_eq; vm_compute; reflexivity|]. split; [exact gen0_parsed|]. split; [|assumption].
  apply (h_block keccak rootx showx gen0 (snd (trie_commit rootx foreign (x_db x1))) r (foreign :: tries_of x1) chainx (wrap64 1) (wrap64 1) (AUser carol) x2 canons block1).
  - apply h_other, (h_genesis keccak rootx showx gen0 xe canon_order canon_order).
    + repeat split.
    + reflexivity.
    + reflexivity.
    + apply (canons_ok O).
    + apply (canons_ok O).
    + exact Eg.
    + assumption.
  - exact Eo.
  - exact canons_ok.
  - exact Ex.
  - assumption.
Qed.

(** ** Keccak-256 golden values: "" and the address of primitive.rs:331-341. *)
Example keccak_empty : hex_encode (keccak_bytes []) =
  ascii "c5d2460186f7233c927e7db2dcc703c0e500b653ca82273b7bfad8045d85a470"%string.
Proof. vm_compute. reflexivity. Qed.
Example keccak_pubkey_address :
  match hex_decode (ascii "031313016e9670deb49779c1b0c646d6a25a545712658f9781995f623bcd0d0b3d"%string) with
  | Ok pk => match user_from_pubkey keccak pk with
             | Ok u => Some (hex_encode (ua u)) | _ => None end
  | _ => None
  end = Some (ascii "10c38f8210896e11a75e1a1f13805d39088d157d7f"%string).
Proof. vm_compute. reflexivity. Qed.
