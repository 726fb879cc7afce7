(** * ExecSpec: what the executor is supposed to compute, without layers.

    A small specification used by the theorems of PropExecutor.v: plain maps,
    one durable state and one visible state.  It uses from the model only the
    account data types and the arithmetic on a single account
    ([account_balance], [account_add], [account_sub], [account_inc]). *)
From Verif Require Import Base BaseFacts Hex Types Rlp FixedCodec StateAdapter Executor.
Local Open Scope N_scope.

Notation accounts := (gmap address account).
Notation assets := (gmap hash asset).

(** Balance of an address in a state; absent accounts hold nothing. *)
Definition bal (m : accounts) (a : address) (id : hash) : N :=
  match m !! a with Some acc => account_balance acc id | None => 0 end.

(** Nonce of an address; 0 for an absent account. *)
Definition nonce (m : accounts) (a : address) : N :=
  match m !! a with Some acc => u64v (account_nonce acc) | None => 0 end.

(** Sum over all accounts of the balance in one asset. *)
Definition total (id : hash) (m : accounts) : N :=
  map_fold (fun _ acc s => account_balance acc id + s) 0 m.

(** The kind of an account agrees with the kind of its address. *)
Definition kind_ok (a : address) (acc : account) : Prop :=
  match a, acc with
  | AUser _, AccUser _ => True
  | AContract _, AccContract _ => True
  | _, _ => False
  end.
Definition wf_accounts (m : accounts) : Prop := map_Forall kind_ok m.

(** Committed state of an executor: what its tries contain. *)
Definition committed (x : executor) : accounts := ad_trie (x_acc x).
Definition committed_assets (x : executor) : assets := ad_trie (x_bank x).

(** An executor as returned by [from_root]: nothing cached. *)
Definition fresh (x : executor) : Prop :=
  ad_cache (x_acc x) = ∅ /\ ad_stash (x_acc x) = ∅ /\
  ad_cache (x_bank x) = ∅ /\ ad_stash (x_bank x) = ∅.

(** An iteration order that really enumerates the map. *)
Definition order_ok (o : iter_order) : Prop :=
  (forall m, io_acc o m ≡ₚ map_to_list m) /\ (forall m, io_bank o m ≡ₚ map_to_list m).

Definition supported (t : signed_tx) : Prop :=
  match rt_action (st_raw t) with
  | Transfer _ _ => True
  | Deploy _ CtAsset => True
  | _ => False
  end.
Global Instance supported_dec t : Decision (supported t).
Proof. unfold supported. destruct (rt_action (st_raw t)) as [| |? []|]; apply _. Defined.

(** Was the transaction successful? *)
Definition succeeded (r : receipt) : bool :=
  match rc_result r with RFail _ _ => false | _ => true end.

Section Spec.
  Context (digest : bytes -> hash).

  (** The address of the sender: 0x10 and the first 20 bytes of the digest of
      the public key (C06). *)
  Definition sender_bytes (t : signed_tx) : bytes := x10 :: firstn 20 (sbytes (digest (st_pubkey t))).
  Definition is_sender (t : signed_tx) (a : address) : Prop := address_bytes a = sender_bytes t.

  Definition is_receiver (t : signed_tx) (a : address) : Prop :=
    match rt_action (st_raw t) with Transfer r _ => a = AUser r | _ => False end.

  (** Debit then credit. *)
  Definition move (V : accounts) (from to : address) (id : hash) (amount : N) : res exec_err accounts :=
    match V !! from with
    | None => Err (EAccountNotFound from)
    | Some acc =>
        let? acc' := account_sub acc id amount in
        let V1 := <[from := acc']> V in
        let dst := match V1 !! to with Some a => a | None => new_account digest to end in
        Ok (<[to := account_add dst id amount]> V1)
    end.

  (** One transaction on plain maps: new accounts, new assets, receipt
      result, cycles. *)
  Definition run_tx (chain_id : hash) (t : signed_tx) (from : address) (V : accounts) (B : assets)
    : res exec_err (accounts * assets * receipt_result * u64) :=
    let limit := fee_cycle (rt_fee (st_raw t)) in
    match rt_action (st_raw t) with
    | Transfer receiver c =>
        match B !! cr_asset_id c with
        | None => Err (EAssetNotFound (cr_asset_id c))
        | Some _ =>
            let? V' := move V from (AUser receiver) (cr_asset_id c) (cr_amount c) in
            if limit <? 210 then Err EOutOfCycles
            else Ok (V', B, RTransfer receiver (cr_asset_id c)
                              (bal V from (cr_asset_id c)) (bal V' from (cr_asset_id c)), wrap64 210)
        end
    | Deploy code CtAsset =>
        match V !! from with
        | None => Err (EAccountNotFound from)
        | Some acc =>
            let? c := map_err ETypes (contract_from_code digest code (account_nonce acc) CtAsset) in
            let id := asset_id_of digest chain_id c in
            match B !! id with
            | Some _ => Err (EAssetExists id)
            | None =>
                if limit <? 2100 then Err EOutOfCycles
                else Ok (V, <[id := MkAsset id SYSTEM_TOKEN ST 21000000000000000 c (hash_from_empty digest)]> B,
                         RDeploy c CtAsset, wrap64 2100)
            end
        end
    | _ => Panic
    end.

  (** Ledger between transactions of a block: visible accounts, durable
      accounts (what a commit would write), assets. *)
  Record ledger := MkLedger { lg_view : accounts; lg_durable : accounts; lg_assets : assets }.

  (** One turn of the block loop: on success everything visible becomes
      durable; on failure everything not durable is forgotten; then the
      sender's nonce is incremented in the visible state only. *)
  Definition ledger_tx (chain_id : hash) (L : ledger) (t : signed_tx) (from : address)
    : res exec_err (res exec_err receipt_result * u64 * ledger) :=
    let? (out, n, V, D, B) :=
      match run_tx chain_id t from (lg_view L) (lg_assets L) with
      | Ok (V', B', r, n) => Ok (Ok r, n, V', V', B')
      | Err e => Ok (Err e, wrap64 0, lg_durable L, lg_durable L, lg_assets L)
      | Panic => Panic
      end in
    match V !! from with
    | None => Err (EAccountNotFound from)
    | Some acc => Ok (out, n, MkLedger (<[from := account_inc acc]> V) D B)
    end.
End Spec.

(** ** Amounts moved by a transaction, read off the transaction itself *)
Section Amounts.
  Context (digest : bytes -> hash).

  (** What [t] takes from / gives to [a] in asset [id] when it succeeds. *)
  Definition amount_sent (t : signed_tx) (a : address) (id : hash) : N :=
    match rt_action (st_raw t) with
    | Transfer _ c =>
        if decide (address_bytes a = sender_bytes digest t /\ id = cr_asset_id c) then cr_amount c else 0
    | _ => 0
    end.
  Definition amount_received (t : signed_tx) (a : address) (id : hash) : N :=
    match rt_action (st_raw t) with
    | Transfer r c => if decide (a = AUser r /\ id = cr_asset_id c) then cr_amount c else 0
    | _ => 0
    end.

  (** Sum of [f] over the transactions whose receipt is a success. *)
  Fixpoint sum_succeeded (f : signed_tx -> N) (ts : list signed_tx) (rs : list receipt) : N :=
    match ts, rs with
    | t :: ts', r :: rs' => (if succeeded r then f t else 0) + sum_succeeded f ts' rs'
    | _, _ => 0
    end.

  (** Number of transactions of [a] whose successor in the block exists and
      succeeds: [rs] without its first element is aligned with [ts]. *)
  Fixpoint followed_by_success (a : address) (ts : list signed_tx) (next : list receipt) : N :=
    match ts, next with
    | t :: ts', r :: next' =>
        (if decide (address_bytes a = sender_bytes digest t) then if succeeded r then 1 else 0 else 0)
        + followed_by_success a ts' next'
    | _, _ => 0
    end.
End Amounts.

(** A state between two transactions of a block. *)
Definition midblock (digest : bytes -> hash) (show : exec_err -> rstring) (x : executor) : Prop :=
  exists x0 os ts rs, fresh x0 /\ wf_accounts (committed x0) /\ (forall n, order_ok (os n)) /\
    exec_txs digest show os x0 ts = Ok (rs, x).

(** Visible balance: what [Executor::get_balance] answers (0 if it fails). *)
Definition visible_balance (x : executor) (a : address) (id : hash) : N :=
  match exec_get_balance x a id with Ok b => b | _ => 0 end.

(** ** Genesis documents, parsed *)
(** A listed balance: asset id in hex, amount as big-endian hex digits. *)
Definition parsed_asset (g : genesis_asset) (p : hash * N) : Prop :=
  hash_from_hex (rs (ga_asset_id g)) = Ok p.1 /\
  exists b, hex_decode (rs (ga_balance g)) = Ok b /\ p.2 = be_val b.
Definition parsed_alloc (g : genesis_alloc) (p : address * list (hash * N)) : Prop :=
  address_from_hex (rs (gl_address g)) = Ok p.1 /\ Forall2 parsed_asset (gl_assets g) p.2.
(** [g] is well formed; its token code is [code], its allocation [allocs]. *)
Definition parsed_genesis (g : genesis) (code : bytes) (allocs : list (address * list (hash * N))) : Prop :=
  hex_decode (rs (gt_code (gn_system_token g))) = Ok code /\
  Forall2 parsed_alloc (gn_state_alloc g) allocs.

(** Sum of the amounts listed for asset [id]; for address [a] and asset [id]. *)
Fixpoint listed (id : hash) (l : list (hash * N)) : N :=
  match l with [] => 0 | (id', n) :: l' => (if decide (id' = id) then n else 0) + listed id l' end.
Fixpoint allocated (a : address) (id : hash) (l : list (address * list (hash * N))) : N :=
  match l with [] => 0 | (a', ps) :: l' => (if decide (a' = a) then listed id ps else 0) + allocated a id l' end.
(** Sum of everything listed for asset [id]. *)
Fixpoint allocated_total (id : hash) (l : list (address * list (hash * N))) : N :=
  match l with [] => 0 | (_, ps) :: l' => listed id ps + allocated_total id l' end.

(** ** The trie database grows *)
(** Other tries committed to the same database. *)
Definition db_after (root_of : gmap bytes bytes -> hash) (d : trie_db) (ms : list (gmap bytes bytes)) : trie_db :=
  fold_left (fun d m => (trie_commit root_of m d).2) ms d.

(** All values of the two contract tries are buffers of the real program. *)
Definition state_fits (x : executor) : Prop :=
  map_Forall (fun _ v => fits (enc_account v)) (committed x) /\
  map_Forall (fun _ v => fits (enc_asset v)) (committed_assets x).

(** ** Fees *)
(** Distinct elements in order of first use. *)
Fixpoint first_uses (l : list hash) : list hash :=
  match l with [] => [] | h :: l' => h :: filter (fun h' => h' <> h) (first_uses l') end.

(** Sum of the cycles of the fees in asset [id]. *)
Fixpoint fees_in (id : hash) (l : list fee) : N :=
  match l with
  | [] => 0
  | f :: l' => (if decide (fee_asset_id f = id) then u64v (fee_cycle f) else 0) + fees_in id l'
  end.

(** ** Determinism and collisions *)
(** Two executors that differ at most in the trie database they point to. *)
Definition same_but_db (x y : executor) : Prop :=
  x_chain_id x = x_chain_id y /\ x_epoch_id x = x_epoch_id y /\ x_price x = x_price y /\
  x_coinbase x = x_coinbase y /\ x_trie x = x_trie y /\ x_acc x = x_acc y /\ x_bank x = x_bank y.

(** The root function is injective on the listed tries: satisfiable (the list
    is finite), unlike injectivity on all tries. *)
Definition clash_free (root_of : gmap bytes bytes -> hash) (l : list (gmap bytes bytes)) : Prop :=
  forall m1 m2, m1 ∈ l -> m2 ∈ l -> root_of m1 = root_of m2 -> m1 = m2.

(** The three tries of an executor: top, accounts, assets. *)
Definition tries_of (x : executor) : list (gmap bytes bytes) :=
  [x_trie x; enc_map account_schema (committed x); enc_map asset_schema (committed_assets x)].

(** ** Assets and histories *)
Section Histories.
  Context (digest : bytes -> hash) (root_of : gmap bytes bytes -> hash) (show : exec_err -> rstring).

  (** The asset a deploy of contract [c] creates on chain [chain]. *)
  Definition deployed_asset (chain : hash) (c : contract_address) : asset :=
    MkAsset (digest (sbytes chain ++ ca c)) SYSTEM_TOKEN ST 21000000000000000 c (digest [x80]).

  (** The asset registered by [create_genesis]. *)
  Definition system_asset (chain : hash) (c : contract_address) (t : genesis_token) : asset :=
    MkAsset (digest (sbytes chain ++ ca c)) (gt_name t) (gt_symbol t) (u64v (gt_supply t)) c (digest [x80]).

  (** [history g d r l]: [r] is the state root after the genesis [g] and any
      number of blocks, [d] the database then, [l] the tries committed on the
      way.  Each block is executed by an executor opened at the previous root;
      anything else may be committed to the database in between. *)
  Inductive history (g : genesis) : trie_db -> hash -> list (gmap bytes bytes) -> Prop :=
  | h_genesis x o1 o2 r x' :
      fresh x -> committed x = ∅ -> committed_assets x = ∅ -> order_ok o1 -> order_ok o2 ->
      create_genesis digest root_of o1 o2 x g = Ok (r, x') -> state_fits x' ->
      history g (x_db x') r (tries_of x')
  | h_other d r l m : history g d r l -> history g (trie_commit root_of m d).2 r (m :: l)
  | h_block d r l chain e p cb x os ts resp x' :
      history g d r l -> from_root digest chain r d e p cb = Ok x ->
      (forall n, order_ok (os n)) -> exec digest root_of show os x ts = Ok (resp, x') -> state_fits x' ->
      history g (x_db x') (er_state_root resp) (tries_of x' ++ l).
End Histories.
