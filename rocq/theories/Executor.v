(** * Executor: core/executor/src/lib.rs, native_contract/*.rs, cycles.rs.

    The executor is modelled over typed adapters (StateAdapter.v); that the
    byte-level adapters of the code behave like the typed ones is theorem
    C15.  [digest] is Keccak-256, [root_of] the Merkle root of a trie, [show]
    the [Display] text of an error; all three are arbitrary functions. *)
From Verif Require Import Base BaseFacts Hex Types Rlp FixedCodec StateAdapter.
From Coq Require Strings.String.
Import String.StringSyntax.
Delimit Scope string_scope with string.
Local Open Scope N_scope.

(** All the [ProtocolError]s the executor can return: account.rs:281-291,
    bank.rs:103-113, cycles.rs:43-47, lib.rs:404-408, [TypesError], trie
    errors (trie/mod.rs:71-75). *)
Inductive exec_err :=
| EInsufficientBalance
| EAccountNotFound (a : address)
| EAssetExists (id : hash)
| EAssetNotFound (id : hash)
| EInvalidAddress
| EOutOfCycles
| EFromHex (e : hex_err)
| ETypes (e : types_err)
| EInvalidStateRoot
| ECodec (e : rlp_err).

(** [InvokeContext], protocol/src/traits/executor/mod.rs:42-53 *)
Record invoke_ctx := MkCtx {
  ic_chain_id : hash; ic_cycles_used : u64; ic_cycles_limit : u64; ic_fee_asset_id : hash;
  ic_cycles_price : u64; ic_epoch_id : u64; ic_caller : address; ic_coinbase : address;
  ic_carrying : option carrying_asset }.

Definition set_cycles (c : invoke_ctx) (n : u64) : invoke_ctx :=
  MkCtx (ic_chain_id c) n (ic_cycles_limit c) (ic_fee_asset_id c) (ic_cycles_price c)
        (ic_epoch_id c) (ic_caller c) (ic_coinbase c) (ic_carrying c).

(** The trie database: the byte maps stored under each root. *)
Definition trie_db := gmap hash (gmap bytes bytes).

(** [TransactionExecutor], lib.rs:36-46.  [state_adapter_map] always holds the
    two adapters [x_acc] and [x_bank]; [x_db] is the shared [Arc<DB>]. *)
Record executor := MkExec {
  x_chain_id : hash; x_epoch_id : u64; x_price : u64; x_coinbase : address;
  x_trie : gmap bytes bytes;
  x_acc : adapter address account; x_bank : adapter hash asset;
  x_db : trie_db }.

Definition set_acc (x : executor) (a : adapter address account) : executor :=
  MkExec (x_chain_id x) (x_epoch_id x) (x_price x) (x_coinbase x) (x_trie x) a (x_bank x) (x_db x).
Definition set_bank (x : executor) (b : adapter hash asset) : executor :=
  MkExec (x_chain_id x) (x_epoch_id x) (x_price x) (x_coinbase x) (x_trie x) (x_acc x) b (x_db x).
Definition set_trie_db (x : executor) (t : gmap bytes bytes) (d : trie_db) : executor :=
  MkExec (x_chain_id x) (x_epoch_id x) (x_price x) (x_coinbase x) t (x_acc x) (x_bank x) d.

(** [ExecutorExecResp], protocol/src/traits/executor/mod.rs:19-25 *)
Record exec_resp := MkResp {
  er_receipts : list receipt; er_all_cycles_used : list fee; er_logs_bloom : Bloom;
  er_state_root : hash }.

(** Every place where the code iterates a [HashMap] takes the iteration order
    from such a record: orders of the two caches and stashes, and which
    adapter of [state_adapter_map] comes first. *)
Record iter_order := MkOrder {
  io_acc : gmap address account -> list (address * account);
  io_bank : gmap hash asset -> list (hash * asset);
  io_bank_first : bool }.

(** ** A state and error monad: [xs] is the executor and the (shared,
    mutable) invoke context. *)
Definition xs : Type := executor * invoke_ctx.
Definition M (A : Type) := xs -> res exec_err A * xs.
Definition ret {A} (a : A) : M A := fun s => (Ok a, s).
Definition bind {A B} (m : M A) (k : A -> M B) : M B := fun s =>
  match m s with
  | (Ok a, s') => k a s'
  | (Err e, s') => (Err e, s')
  | (Panic, s') => (Panic, s')
  end.
Definition fail {A} (e : exec_err) : M A := fun s => (Err e, s).
Definition panic {A} : M A := fun s => (Panic, s).
Definition lift {A} (r : res exec_err A) : M A := fun s => (r, s).
Definition ask_ctx : M invoke_ctx := fun s => (Ok s.2, s).
Definition ask_exec : M executor := fun s => (Ok s.1, s).
Definition put_acc (a : adapter address account) : M unit := fun s => (Ok tt, (set_acc s.1 a, s.2)).
Definition put_bank (b : adapter hash asset) : M unit := fun s => (Ok tt, (set_bank s.1 b, s.2)).
Definition put_cycles (n : u64) : M unit := fun s => (Ok tt, (s.1, set_cycles s.2 n)).
Notation "'do' x '<-' m ';' k" := (bind m (fun x => k))
  (at level 200, x pattern, m at level 100, k at level 200, right associativity).

(** ** cycles.rs *)
Inductive cycles_action := AccountTransfer | BankRegister.

Definition u64_lit (n : N) : u64 := wrap64 n.

(** cycles.rs:9-18: [NATIVE_BASE_CYCLES * 21] and [* 210] *)
Definition cycles_table (a : cycles_action) : N :=
  match a with AccountTransfer => 10 * 21 | BankRegister => 10 * 210 end.

(** [consume_cycles], cycles.rs:26-41 *)
Definition consume_cycles (a : cycles_action) (used limit : u64) : res exec_err u64 :=
  let used' := wrap64 (used + cycles_table a) in
  if (limit <? used')%N then Err EOutOfCycles else Ok used'.

(** ** Account helpers (pure parts), account.rs:193-278 *)
(** [get_balance_with_user]/[get_balance_with_contract], account.rs:193-215, 142-145 *)
Definition account_balance (acc : account) (id : hash) : balance :=
  match acc with
  | AccUser u => match uac_assets u !! id with Some i => ai_balance i | None => 0 end
  | AccContract c => match cac_assets c !! id with Some b => b | None => 0 end
  end.

(** [add_balance_with_user]/[_contract], account.rs:217-246 *)
Definition account_add (acc : account) (id : hash) (amount : balance) : account :=
  match acc with
  | AccUser u =>
      let info := match uac_assets u !! id with
                  | Some i => MkAssetInfo (ai_balance i + amount) (ai_approved i)
                  | None => MkAssetInfo amount ∅
                  end in
      AccUser (MkUserAccount (uac_nonce u) (<[id := info]> (uac_assets u)))
  | AccContract c =>
      let b := match cac_assets c !! id with Some b => b + amount | None => amount end in
      AccContract (MkContractAccount (cac_nonce c) (<[id := b]> (cac_assets c)) (cac_storage_root c))
  end.

(** [sub_balance_with_user]/[_contract], account.rs:248-278.  [BigUint]'s
    [-=] panics on underflow. *)
Definition account_sub (acc : account) (id : hash) (amount : balance) : res exec_err account :=
  match acc with
  | AccUser u =>
      match uac_assets u !! id with
      | Some i =>
          if ai_balance i <? amount then Err EInsufficientBalance
          else Ok (AccUser (MkUserAccount (uac_nonce u)
                 (<[id := MkAssetInfo (ai_balance i - amount) (ai_approved i)]> (uac_assets u))))
      | None => Err EInsufficientBalance
      end
  | AccContract c =>
      match cac_assets c !! id with
      | Some b =>
          if b <? amount then Panic
          else Ok (AccContract (MkContractAccount (cac_nonce c) (<[id := b - amount]> (cac_assets c))
                                                  (cac_storage_root c)))
      | None =>
          Ok (AccContract (MkContractAccount (cac_nonce c) (<[id := amount]> (cac_assets c))
                                             (cac_storage_root c)))
      end
  end.

(** The nonce of an account and [nonce + 1], account.rs:115-125, 162-165 *)
Definition account_nonce (acc : account) : u64 :=
  match acc with AccUser u => uac_nonce u | AccContract c => cac_nonce c end.
Definition account_inc (acc : account) : account :=
  match acc with
  | AccUser u => AccUser (MkUserAccount (wrap64 (uac_nonce u + 1)) (uac_assets u))
  | AccContract c =>
      AccContract (MkContractAccount (wrap64 (cac_nonce c + 1)) (cac_assets c) (cac_storage_root c))
  end.

Section Executor.
  Context (digest : bytes -> hash) (root_of : gmap bytes bytes -> hash)
          (show : exec_err -> rstring).

  (** ** native_contract/account.rs *)

  (** The account created by [find_or_create], account.rs:179-189 *)
  Definition new_account (a : address) : account :=
    match a with
    | AUser _ => AccUser (MkUserAccount (wrap64 0) ∅)
    | AContract _ => AccContract (MkContractAccount (wrap64 0) ∅ (hash_from_empty digest))
    end.

  (** [find_or_create], account.rs:170-191 (does not store the account) *)
  Definition find_or_create (a : address) : M account :=
    do x <- ask_exec;
    ret (match ad_get (x_acc x) a with Some acc => acc | None => new_account a end).

  (** [create_account], account.rs:57-59 *)
  Definition create_account (a : address) : M account := find_or_create a.

  (** [insert_cache::<FixedAccountSchema>] *)
  Definition insert_account (a : address) (acc : account) : M unit :=
    do x <- ask_exec; put_acc (ad_insert (x_acc x) a acc).

  (** [add_balance], account.rs:61-84 *)
  Definition add_balance (id : hash) (a : address) (amount : balance) : M unit :=
    do acc <- find_or_create a;
    insert_account a (account_add acc id amount).

  (** [sub_balance], account.rs:86-109 *)
  Definition sub_balance (id : hash) (a : address) (amount : balance) : M unit :=
    do acc <- find_or_create a;
    do acc' <- lift (account_sub acc id amount);
    insert_account a acc'.

  (** [get_account], account.rs:148-157 *)
  Definition get_account (a : address) : M account :=
    do x <- ask_exec;
    lift (ok_or (ad_get (x_acc x) a) (EAccountNotFound a)).

  (** [get_balance], account.rs:133-146 *)
  Definition get_balance (id : hash) (a : address) : M balance :=
    do acc <- get_account a; ret (account_balance acc id).

  (** [get_nonce], account.rs:159-166 *)
  Definition get_nonce (a : address) : M u64 :=
    do acc <- get_account a; ret (account_nonce acc).

  (** [inc_nonce], account.rs:111-131 *)
  Definition inc_nonce : M unit :=
    do c <- ask_ctx;
    do acc <- get_account (ic_caller c);
    insert_account (ic_caller c) (account_inc acc).

  (** [transfer], account.rs:31-55 *)
  Definition transfer (to : address) : M unit :=
    do c <- ask_ctx;
    do carry <- lift (ok_or (ic_carrying c) EInsufficientBalance);
    do _ <- sub_balance (cr_asset_id carry) (ic_caller c) (cr_amount carry);
    do _ <- add_balance (cr_asset_id carry) to (cr_amount carry);
    do n <- lift (consume_cycles AccountTransfer (ic_cycles_used c) (ic_cycles_limit c));
    put_cycles n.

  (** ** native_contract/bank.rs *)

  (** The asset id, bank.rs:57-59 *)
  Definition asset_id_of (chain_id : hash) (c : contract_address) : hash :=
    digest (sbytes chain_id ++ ca c).

  (** [register], bank.rs:45-91; [self.chain_id] is the executor's (lib.rs:317) *)
  Definition register (c : contract_address) (name symbol : rstring) (supply : balance) : M asset :=
    if decide (contract_type_of c = CtAsset) then
      do x <- ask_exec;
      let id := asset_id_of (x_chain_id x) c in
      if ad_contains (x_bank x) id then fail (EAssetExists id)
      else
        let ast := MkAsset id name symbol supply c (hash_from_empty digest) in
        do _ <- put_bank (ad_insert (x_bank x) id ast);
        do ctx <- ask_ctx;
        do n <- lift (consume_cycles BankRegister (ic_cycles_used ctx) (ic_cycles_limit ctx));
        do _ <- put_cycles n;
        ret ast
    else fail EInvalidAddress.

  (** [get_asset], bank.rs:93-100 *)
  Definition get_asset (id : hash) : M asset :=
    do x <- ask_exec; lift (ok_or (ad_get (x_bank x) id) (EAssetNotFound id)).

  (** ** lib.rs *)

  (** [handle_transfer], lib.rs:197-230.  [expect] on a missing carrying
      asset panics. *)
  Definition handle_transfer (to : address) : M receipt_result :=
    do c <- ask_ctx;
    match ic_carrying c with
    | None => panic
    | Some carry =>
        do _ <- get_asset (cr_asset_id carry);
        do before <- get_balance (cr_asset_id carry) (ic_caller c);
        do _ <- transfer to;
        do after <- get_balance (cr_asset_id carry) (ic_caller c);
        do receiver <- lift (map_err ETypes (user_from_bytes (address_bytes to)));
        ret (RTransfer receiver (cr_asset_id carry) before after)
    end.

  Definition lit (b : bytes) (e : utf8 b = true) : rstring := RString b e.
  Definition SYSTEM_TOKEN : rstring := lit (ascii "System token"%string) eq_refl.
  Definition ST : rstring := lit (ascii "ST"%string) eq_refl.

  (** [handle_deploy], lib.rs:232-259 *)
  Definition handle_deploy (code : bytes) (t : contract_type) : M receipt_result :=
    match t with
    | CtAsset =>
        do c <- ask_ctx;
        do nonce <- get_nonce (ic_caller c);
        do addr <- lift (map_err ETypes (contract_from_code digest code nonce CtAsset));
        do _ <- register addr SYSTEM_TOKEN ST 21000000000000000;
        ret (RDeploy addr CtAsset)
    | _ => panic
    end.

  (** [dispatch], lib.rs:175-195 *)
  Definition dispatch (t : signed_tx) : M receipt_result :=
    match rt_action (st_raw t) with
    | Transfer receiver _ => handle_transfer (AUser receiver)
    | Deploy code ct => handle_deploy code ct
    | _ => panic
    end.

  (** [stash], lib.rs:261-266: both adapters, in the order of the map *)
  Definition stash_all (o : iter_order) (x : executor) : executor :=
    let f x := set_acc x (ad_stash_op (io_acc o (ad_cache (x_acc x))) (x_acc x)) in
    let g x := set_bank x (ad_stash_op (io_bank o (ad_cache (x_bank x))) (x_bank x)) in
    if io_bank_first o then f (g x) else g (f x).

  (** [revert], lib.rs:268-273 *)
  Definition revert_all (o : iter_order) (x : executor) : executor :=
    let f x := set_acc x (ad_revert (x_acc x)) in
    let g x := set_bank x (ad_revert (x_bank x)) in
    if io_bank_first o then f (g x) else g (f x).

  (** native_contract/mod.rs:8-17: the two contract addresses, as bytes *)
  Definition ACCOUNT_CONTRACT_ADDRESS : bytes :=
    [x23; xc0; x00; x00; x00; x00; x00; x00; x00; x00; x00; x00; x00; x00; x00; x00; x00; x00; x00; x00; x01].
  Definition BANK_CONTRACT_ADDRESS : bytes :=
    [x23; x00; x00; x00; x00; x00; x00; x00; x00; x00; x00; x00; x00; x00; x00; x00; x00; x00; x00; x00; x02].

  (** [MPTTrie::commit], trie/mod.rs:63-68: returns the root and stores the
      content under it. *)
  Definition trie_commit (m : gmap bytes bytes) (d : trie_db) : hash * trie_db :=
    (root_of m, <[root_of m := m]> d).

  (** One iteration of the loop of [commit], lib.rs:276-280, for each adapter:
      adapter commit (contract.rs:103-110), then insert its root in the top trie. *)
  Definition commit_acc (o : iter_order) (x : executor) : executor :=
    let a := ad_commit_op (io_acc o (ad_stash (x_acc x))) (x_acc x) in
    let '(r, d) := trie_commit (enc_map account_schema (ad_trie a)) (x_db x) in
    set_trie_db (set_acc x a) (<[ACCOUNT_CONTRACT_ADDRESS := sbytes r]> (x_trie x)) d.
  Definition commit_bank (o : iter_order) (x : executor) : executor :=
    let b := ad_commit_op (io_bank o (ad_stash (x_bank x))) (x_bank x) in
    let '(r, d) := trie_commit (enc_map asset_schema (ad_trie b)) (x_db x) in
    set_trie_db (set_bank x b) (<[BANK_CONTRACT_ADDRESS := sbytes r]> (x_trie x)) d.

  (** [commit], lib.rs:275-283 *)
  Definition commit (o : iter_order) (x : executor) : hash * executor :=
    let x1 := if io_bank_first o then commit_acc o (commit_bank o x)
              else commit_bank o (commit_acc o x) in
    let '(r, d) := trie_commit (x_trie x1) (x_db x1) in
    (r, set_trie_db x1 (x_trie x1) d).

  (** [gen_invoke_ctx], lib.rs:374-402 *)
  Definition gen_invoke_ctx (x : executor) (t : signed_tx) : res exec_err invoke_ctx :=
    let? caller := map_err ETypes (user_from_pubkey digest (st_pubkey t)) in
    Ok (MkCtx (x_chain_id x) (wrap64 0) (fee_cycle (rt_fee (st_raw t)))
              (fee_asset_id (rt_fee (st_raw t))) (x_price x) (x_epoch_id x)
              (AUser caller) (x_coinbase x)
              (match rt_action (st_raw t) with
               | Transfer _ c => Some c
               | Call _ _ _ c => c
               | _ => None
               end)).

  (** The body of the loop of [exec], lib.rs:102-143.  The receipt's
      [state_root] is filled in later. *)
  Definition exec_tx (o : iter_order) (x : executor) (t : signed_tx)
    : res exec_err (receipt * executor) :=
    let? ictx := gen_invoke_ctx x t in
    let? (result, (x1, ictx1)) :=
      match dispatch t (x, ictx) with
      | (Ok r, (x', c')) => Ok (r, (stash_all o x', c'))
      | (Err e, (x', c')) => Ok (RFail (show e) (lit [] eq_refl), (revert_all o x', c'))
      | (Panic, _) => Panic
      end in
    let? (x2, ictx2) :=
      match inc_nonce (x1, ictx1) with
      | (Ok _, s) => Ok s
      | (Err e, _) => Err e
      | (Panic, _) => Panic
      end in
    Ok (MkReceipt (hash_from_empty digest) (ic_epoch_id ictx2) (st_tx_hash t)
          (MkFee (ic_fee_asset_id ictx2) (wrap64 (ic_cycles_used ictx2 * x_price x2))) result, x2).

  (** The loop, lib.rs:102-143; [os n] is the iteration order used by the n-th
      transaction. *)
  Fixpoint exec_txs (os : nat -> iter_order) (x : executor) (ts : list signed_tx)
    : res exec_err (list receipt * executor) :=
    match ts with
    | [] => Ok ([], x)
    | t :: ts' =>
        let? (r, x1) := exec_tx (os O) x t in
        let? (rs, x2) := exec_txs (fun n => os (S n)) x1 ts' in
        Ok (r :: rs, x2)
    end.

  (** [modify_all_cycles_used], lib.rs:358-372: [u64] [+=] wraps *)
  Fixpoint modify_all_cycles_used (all : list fee) (f : fee) : list fee :=
    match all with
    | [] => [f]
    | g :: all' =>
        if decide (fee_asset_id g = fee_asset_id f)
        then MkFee (fee_asset_id g) (wrap64 (fee_cycle g + fee_cycle f)) :: all'
        else g :: modify_all_cycles_used all' f
    end.

  (** lib.rs:145-156 *)
  Definition all_cycles_used (rs : list receipt) : list fee :=
    fold_left (fun all r => modify_all_cycles_used all (rc_cycles_used r)) rs [].

  (** The reward loop, lib.rs:150-156.  [add_balance] cannot fail. *)
  Definition pay_coinbase (x : executor) (fees : list fee) : executor :=
    fold_left (fun x f =>
      let a := x_coinbase x in
      let acc := match ad_get (x_acc x) a with Some acc => acc | None => new_account a end in
      set_acc x (ad_insert (x_acc x) a (account_add acc (fee_asset_id f) (fee_cycle f)))) fees x.

  Definition with_root (r : receipt) (h : hash) : receipt :=
    MkReceipt h (rc_epoch_id r) (rc_tx_hash r) (rc_cycles_used r) (rc_result r).

  (** [Bloom::default()] *)
  Definition zero_bloom : Bloom := @Sized 256%nat (repeat x00 256) eq_refl.

  (** [exec], lib.rs:99-167.  On [Err] and [Panic] the executor is dropped by
      every caller; its state is not returned. *)
  Definition exec (os : nat -> iter_order) (x : executor) (ts : list signed_tx)
    : res exec_err (exec_resp * executor) :=
    let? (rs, x1) := exec_txs (fun n => os (S n)) x ts in
    let fees := all_cycles_used rs in
    let x2 := pay_coinbase x1 fees in
    let '(root, x3) := commit (os O) x2 in
    Ok (MkResp (map (fun r => with_root r root) rs) fees zero_bloom root, x3).

  (** [Executor::get_balance], lib.rs:169-171 *)
  Definition exec_get_balance (x : executor) (a : address) (id : hash) : res exec_err balance :=
    let? acc := ok_or (ad_get (x_acc x) a) (EAccountNotFound a) in
    Ok (account_balance acc id).

  (** ** create_genesis, lib.rs:49-97 *)
  Definition alloc_asset (a : address) (g : genesis_asset) : M unit :=
    do id <- lift (map_err ETypes (hash_from_hex (rs (ga_asset_id g))));
    do b <- lift (map_err EFromHex (hex_decode (rs (ga_balance g))));
    add_balance id a (biguint_from_bytes_be b).

  Fixpoint alloc_assets (a : address) (l : list genesis_asset) : M unit :=
    match l with
    | [] => ret tt
    | g :: l' => do _ <- alloc_asset a g; alloc_assets a l'
    end.

  Fixpoint alloc_all (l : list genesis_alloc) : M unit :=
    match l with
    | [] => ret tt
    | g :: l' =>
        do a <- lift (map_err ETypes (address_from_hex (rs (gl_address g))));
        do _ <- create_account a;
        do _ <- alloc_assets a (gl_assets g);
        alloc_all l'
    end.

  Definition genesis_body (g : genesis) : M unit :=
    do code <- lift (map_err EFromHex (hex_decode (rs (gt_code (gn_system_token g)))));
    do addr <- lift (map_err ETypes (contract_from_code digest code (wrap64 0) CtAsset));
    do _ <- register addr (gt_name (gn_system_token g)) (gt_symbol (gn_system_token g))
                     (u64v (gt_supply (gn_system_token g)));
    alloc_all (gn_state_alloc g).

  Definition genesis_ctx (x : executor) : invoke_ctx :=
    MkCtx (x_chain_id x) (wrap64 0) (wrap64 999999999999) (hash_from_empty digest) (x_price x)
          (wrap64 0) (x_coinbase x) (x_coinbase x) None.

  Definition create_genesis (o1 o2 : iter_order) (x : executor) (g : genesis)
    : res exec_err (hash * executor) :=
    match genesis_body g (x, genesis_ctx x) with
    | (Ok _, (x1, _)) => Ok (commit o2 (stash_all o1 x1))
    | (Err e, _) => Err e
    | (Panic, _) => Panic
    end.

  (** ** from_root, lib.rs:289-337 *)
  (** [MPTTrie::from], trie/mod.rs:37-42: fails if the root is not in the database. *)
  Definition trie_from (root : hash) (d : trie_db) : res exec_err (gmap bytes bytes) :=
    ok_or (d !! root) EInvalidStateRoot.

  (** [gen_contract_state], lib.rs:340-356.  The code decodes entries when they
      are read; here the whole trie is decoded when it is opened (so a corrupt
      entry is an error at once). *)
  Definition gen_contract_state {K V} `{Countable K} (s : schema K V)
    (top : gmap bytes bytes) (addr : bytes) (d : trie_db) : res exec_err (adapter K V) :=
    let? content :=
      match top !! addr with
      | Some v =>
          let? root := map_err ETypes (hash_from_bytes v) in
          trie_from root d
      | None => Ok ∅
      end in
    let? m := map_err ECodec (dec_map s content) in
    Ok (ad_new m).

  Definition from_root (chain_id state_root : hash) (d : trie_db) (epoch_id price : u64)
    (coinbase : address) : res exec_err executor :=
    let? top := (if decide (state_root = hash_from_empty digest) then Ok ∅
                 else trie_from state_root d) in
    let? acc := gen_contract_state account_schema top ACCOUNT_CONTRACT_ADDRESS d in
    let? bank := gen_contract_state asset_schema top BANK_CONTRACT_ADDRESS d in
    Ok (MkExec chain_id epoch_id price coinbase top acc bank d).
End Executor.

(** The canonical iteration order. *)
Definition canon_order : iter_order := MkOrder map_to_list map_to_list false.
