(** * The executor over its database: core/executor with nothing abstracted.

    Executor.v works on typed maps and a database of whole tries.  Here the same
    functions work as in the code: encoded entries in the hash maps of
    adapter/contract.rs, tries of nodes (Mpt.v) loaded on demand from one
    database of encoded nodes.  PropDb.v proves that they give the same
    results.

    [dx_log] is a ghost: the encoded values put into the caches, in order, so
    that statements can ask that no buffer of a run is 4 GB or longer.  It is
    never read. *)
From Verif Require Import Base BaseFacts Hex Types Rlp FixedCodec StateAdapter Executor Mpt.
Local Open Scope N_scope.

(** [GeneralContractStateAdapter], adapter/contract.rs:19-26 *)
Record dadapter := DAdapter { da_trie : node; da_cache : gmap bytes bytes; da_stash : gmap bytes bytes }.
(** adapter/contract.rs:29-36 *)
Definition da_new (n : node) : dadapter := DAdapter n ∅ ∅.

(** [TransactionExecutor], lib.rs:36-46 *)
Record dexec := DExec {
  dx_chain_id : hash; dx_epoch_id : u64; dx_price : u64; dx_coinbase : address;
  dx_top : node; dx_acc : dadapter; dx_bank : dadapter; dx_db : gmap hash bytes; dx_log : list bytes }.
Definition dset_acc (d : dexec) (a : dadapter) (log : list bytes) : dexec :=
  DExec (dx_chain_id d) (dx_epoch_id d) (dx_price d) (dx_coinbase d) (dx_top d) a (dx_bank d) (dx_db d) (dx_log d ++ log).
Definition dset_bank (d : dexec) (b : dadapter) (log : list bytes) : dexec :=
  DExec (dx_chain_id d) (dx_epoch_id d) (dx_price d) (dx_coinbase d) (dx_top d) (dx_acc d) b (dx_db d) (dx_log d ++ log).
Definition dset_top (d : dexec) (n : node) (db : gmap hash bytes) : dexec :=
  DExec (dx_chain_id d) (dx_epoch_id d) (dx_price d) (dx_coinbase d) n (dx_acc d) (dx_bank d) db (dx_log d).

(** Iteration orders of the hash maps of encoded entries. *)
Record dorder := DOrder {
  do_acc : gmap bytes bytes -> list (bytes * bytes); do_bank : gmap bytes bytes -> list (bytes * bytes); do_bank_first : bool }.

(** A trie error ([TrieError], trie/mod.rs:71-75): one value for all of them. *)
Definition ETrie : exec_err := EInvalidStateRoot.

Section Adapter.
  Context {K V : Type} (s : schema K V).
  Definition da_decode (v : bytes) : res exec_err (option V) := map_err ECodec (rmap Some (sc_dval s v)).
  (** contract.rs:40-61 *)
  Definition da_get (db : gmap hash bytes) (a : dadapter) (k : K) : res exec_err (option V) :=
    match da_cache a !! sc_ekey s k with
    | Some v => da_decode v
    | None =>
        match da_stash a !! sc_ekey s k with
        | Some v => da_decode v
        | None =>
            match tr_get db (da_trie a) (sc_ekey s k) with
            | Some (Some v) => da_decode v
            | Some None => Ok None
            | None => Err ETrie
            end
        end
    end.
  (** contract.rs:63-78 *)
  Definition da_contains (db : gmap hash bytes) (a : dadapter) (k : K) : res exec_err bool :=
    match da_cache a !! sc_ekey s k with
    | Some _ => Ok true
    | None => match da_stash a !! sc_ekey s k with
              | Some _ => Ok true
              | None => ok_or (tr_contains db (da_trie a) (sc_ekey s k)) ETrie
              end
    end.
  (** contract.rs:80-88 *)
  Definition da_insert (a : dadapter) (k : K) (v : V) : dadapter :=
    DAdapter (da_trie a) (<[sc_ekey s k := sc_eval s v]> (da_cache a)) (da_stash a).
End Adapter.
(** contract.rs:90-93 *)
Definition da_revert (a : dadapter) : dadapter := DAdapter (da_trie a) ∅ (da_stash a).
(** contract.rs:95-101 *)
Definition da_stash_op (l : list (bytes * bytes)) (a : dadapter) : dadapter := DAdapter (da_trie a) ∅ (insert_all l (da_stash a)).
(** contract.rs:103-110 *)
Definition da_commit (digest : bytes -> hash) (db : gmap hash bytes) (l : list (bytes * bytes)) (a : dadapter)
  : option (hash * gmap hash bytes * dadapter) :=
  match inserts db l (da_trie a) with
  | Some n =>
      match tr_commit digest db n with
      | (r, db', Some n') => Some (r, db', DAdapter n' (da_cache a) ∅)
      | _ => None
      end
  | None => None
  end.

(** State and errors: the executor and the invoke context. *)
Definition DM (A : Type) := dexec * invoke_ctx -> res exec_err A * (dexec * invoke_ctx).
Definition dret {A} (a : A) : DM A := fun s => (Ok a, s).
Definition dbind {A B} (m : DM A) (k : A -> DM B) : DM B := fun s =>
  match m s with (Ok a, s') => k a s' | (Err e, s') => (Err e, s') | (Panic, s') => (Panic, s') end.
Definition dlift {A} (r : res exec_err A) : DM A := fun s => (r, s).
Definition dctx : DM invoke_ctx := fun s => (Ok s.2, s).
Definition dask : DM dexec := fun s => (Ok s.1, s).
Definition dcycles (n : u64) : DM unit := fun s => (Ok tt, (s.1, set_cycles s.2 n)).
Notation "'dod' x '<-' m ';' k" := (dbind m (fun x => k)) (at level 200, x pattern, m at level 100, k at level 200, right associativity).

Section DbExec.
  Context (digest : bytes -> hash) (show : exec_err -> rstring).

  (** *** native_contract/account.rs *)
  Definition d_read_account (a : address) : DM (option account) :=
    dod d <- dask; dlift (da_get account_schema (dx_db d) (dx_acc d) a).
  (** account.rs:170-191 *)
  Definition d_find_or_create (a : address) : DM account :=
    dod o <- d_read_account a; dret (match o with Some acc => acc | None => new_account digest a end).
  Definition d_insert_account (a : address) (acc : account) : DM unit := fun s =>
    (Ok tt, (dset_acc s.1 (da_insert account_schema (dx_acc s.1) a acc) [enc_account acc], s.2)).
  (** account.rs:61-84 *)
  Definition d_add_balance (id : hash) (a : address) (amount : balance) : DM unit :=
    dod acc <- d_find_or_create a; d_insert_account a (account_add acc id amount).
  (** account.rs:86-109 *)
  Definition d_sub_balance (id : hash) (a : address) (amount : balance) : DM unit :=
    dod acc <- d_find_or_create a;
    dod acc' <- dlift (account_sub acc id amount);
    d_insert_account a acc'.
  (** account.rs:148-157 *)
  Definition d_get_account (a : address) : DM account :=
    dod o <- d_read_account a; dlift (ok_or o (EAccountNotFound a)).
  (** account.rs:133-146 *)
  Definition d_get_balance (id : hash) (a : address) : DM balance :=
    dod acc <- d_get_account a; dret (account_balance acc id).
  (** account.rs:159-166 *)
  Definition d_get_nonce (a : address) : DM u64 := dod acc <- d_get_account a; dret (account_nonce acc).
  (** account.rs:111-131 *)
  Definition d_inc_nonce : DM unit :=
    dod c <- dctx;
    dod acc <- d_get_account (ic_caller c);
    d_insert_account (ic_caller c) (account_inc acc).
  (** account.rs:31-55 *)
  Definition d_transfer (to : address) : DM unit :=
    dod c <- dctx;
    dod carry <- dlift (ok_or (ic_carrying c) EInsufficientBalance);
    dod _ <- d_sub_balance (cr_asset_id carry) (ic_caller c) (cr_amount carry);
    dod _ <- d_add_balance (cr_asset_id carry) to (cr_amount carry);
    dod n <- dlift (consume_cycles AccountTransfer (ic_cycles_used c) (ic_cycles_limit c));
    dcycles n.

  (** *** native_contract/bank.rs *)
  Definition d_insert_asset (id : hash) (v : asset) : DM unit := fun s =>
    (Ok tt, (dset_bank s.1 (da_insert asset_schema (dx_bank s.1) id v) [enc_asset v], s.2)).
  (** bank.rs:45-91 *)
  Definition d_register (c : contract_address) (name symbol : rstring) (supply : balance) : DM asset :=
    if decide (contract_type_of c = CtAsset) then
      dod d <- dask;
      let id := asset_id_of digest (dx_chain_id d) c in
      dod known <- dlift (da_contains asset_schema (dx_db d) (dx_bank d) id);
      if known : bool then dlift (Err (EAssetExists id))
      else
        let ast := MkAsset id name symbol supply c (hash_from_empty digest) in
        dod _ <- d_insert_asset id ast;
        dod ctx <- dctx;
        dod n <- dlift (consume_cycles BankRegister (ic_cycles_used ctx) (ic_cycles_limit ctx));
        dod _ <- dcycles n;
        dret ast
    else dlift (Err EInvalidAddress).
  (** bank.rs:93-100 *)
  Definition d_get_asset (id : hash) : DM asset :=
    dod d <- dask;
    dod o <- dlift (da_get asset_schema (dx_db d) (dx_bank d) id);
    dlift (ok_or o (EAssetNotFound id)).

  (** *** lib.rs *)
  (** lib.rs:197-230 *)
  Definition d_handle_transfer (to : address) : DM receipt_result :=
    dod c <- dctx;
    match ic_carrying c with
    | None => dlift Panic
    | Some carry =>
        dod _ <- d_get_asset (cr_asset_id carry);
        dod before <- d_get_balance (cr_asset_id carry) (ic_caller c);
        dod _ <- d_transfer to;
        dod after <- d_get_balance (cr_asset_id carry) (ic_caller c);
        dod receiver <- dlift (map_err ETypes (user_from_bytes (address_bytes to)));
        dret (RTransfer receiver (cr_asset_id carry) before after)
    end.
  (** lib.rs:232-259 *)
  Definition d_handle_deploy (code : bytes) (t : contract_type) : DM receipt_result :=
    match t with
    | CtAsset =>
        dod c <- dctx;
        dod nonce <- d_get_nonce (ic_caller c);
        dod addr <- dlift (map_err ETypes (contract_from_code digest code nonce CtAsset));
        dod _ <- d_register addr SYSTEM_TOKEN ST 21000000000000000;
        dret (RDeploy addr CtAsset)
    | _ => dlift Panic
    end.
  (** lib.rs:175-195 *)
  Definition d_dispatch (t : signed_tx) : DM receipt_result :=
    match rt_action (st_raw t) with
    | Transfer receiver _ => d_handle_transfer (AUser receiver)
    | Deploy code ct => d_handle_deploy code ct
    | _ => dlift Panic
    end.
  (** lib.rs:261-266: the two adapters, each for itself *)
  Definition d_stash (o : dorder) (d : dexec) : dexec :=
    dset_bank (dset_acc d (da_stash_op (do_acc o (da_cache (dx_acc d))) (dx_acc d)) [])
      (da_stash_op (do_bank o (da_cache (dx_bank d))) (dx_bank d)) [].
  (** lib.rs:268-273 *)
  Definition d_revert (d : dexec) : dexec :=
    dset_bank (dset_acc d (da_revert (dx_acc d)) []) (da_revert (dx_bank d)) [].

  (** One step of the loop of [commit], lib.rs:276-280 *)
  Definition d_commit_acc (o : dorder) (d : dexec) : option dexec :=
    match da_commit digest (dx_db d) (do_acc o (da_stash (dx_acc d))) (dx_acc d) with
    | Some (r, db, a) =>
        match tr_insert db (dx_top d) ACCOUNT_CONTRACT_ADDRESS (sbytes r) with
        | Some n => Some (dset_top (dset_acc d a []) n db)
        | None => None
        end
    | None => None
    end.
  Definition d_commit_bank (o : dorder) (d : dexec) : option dexec :=
    match da_commit digest (dx_db d) (do_bank o (da_stash (dx_bank d))) (dx_bank d) with
    | Some (r, db, a) =>
        match tr_insert db (dx_top d) BANK_CONTRACT_ADDRESS (sbytes r) with
        | Some n => Some (dset_top (dset_bank d a []) n db)
        | None => None
        end
    | None => None
    end.
  (** lib.rs:275-283 *)
  Definition d_commit (o : dorder) (d : dexec) : option (hash * dexec) :=
    match (if do_bank_first o
           then match d_commit_bank o d with Some d1 => d_commit_acc o d1 | None => None end
           else match d_commit_acc o d with Some d1 => d_commit_bank o d1 | None => None end) with
    | Some d2 =>
        match tr_commit digest (dx_db d2) (dx_top d2) with
        | (r, db, Some n) => Some (r, dset_top d2 n db)
        | _ => None
        end
    | None => None
    end.

  (** [gen_invoke_ctx], lib.rs:374-402 *)
  Definition d_invoke_ctx (d : dexec) (t : signed_tx) : res exec_err invoke_ctx :=
    let? caller := map_err ETypes (user_from_pubkey digest (st_pubkey t)) in
    Ok (MkCtx (dx_chain_id d) (wrap64 0) (fee_cycle (rt_fee (st_raw t)))
              (fee_asset_id (rt_fee (st_raw t))) (dx_price d) (dx_epoch_id d)
              (AUser caller) (dx_coinbase d)
              (match rt_action (st_raw t) with
               | Transfer _ c => Some c
               | Call _ _ _ c => c
               | _ => None
               end)).
  (** The body of the loop of [exec], lib.rs:102-143 *)
  Definition d_exec_tx (o : dorder) (d : dexec) (t : signed_tx) : res exec_err receipt * dexec :=
    match d_invoke_ctx d t with
    | Ok ictx =>
        match (match d_dispatch t (d, ictx) with
               | (Ok r, (d', c')) => (Ok r, (d_stash o d', c'))
               | (Err e, (d', c')) => (Ok (RFail (show e) (lit [] eq_refl)), (d_revert d', c'))
               | (Panic, s) => (Panic, s)
               end) with
        | (Ok result, s1) =>
            match d_inc_nonce s1 with
            | (Ok _, (d2, ictx2)) =>
                (Ok (MkReceipt (hash_from_empty digest) (ic_epoch_id ictx2) (st_tx_hash t)
                   (MkFee (ic_fee_asset_id ictx2) (wrap64 (ic_cycles_used ictx2 * dx_price d2))) result), d2)
            | (Err e, (d2, _)) => (Err e, d2)
            | (Panic, (d2, _)) => (Panic, d2)
            end
        | (Err e, s1) => (Err e, s1.1)
        | (Panic, s1) => (Panic, s1.1)
        end
    | Err e => (Err e, d)
    | Panic => (Panic, d)
    end.
  Fixpoint d_exec_txs (os : nat -> dorder) (d : dexec) (ts : list signed_tx) : res exec_err (list receipt) * dexec :=
    match ts with
    | [] => (Ok [], d)
    | t :: ts' =>
        match d_exec_tx (os O) d t with
        | (Ok r, d1) =>
            match d_exec_txs (fun n => os (S n)) d1 ts' with
            | (Ok rs, d2) => (Ok (r :: rs), d2)
            | (Err e, d2) => (Err e, d2)
            | (Panic, d2) => (Panic, d2)
            end
        | (Err e, d1) => (Err e, d1)
        | (Panic, d1) => (Panic, d1)
        end
    end.
  (** lib.rs:150-156 *)
  Fixpoint d_pay (cb : address) (fees : list fee) : DM unit :=
    match fees with
    | [] => dret tt
    | f :: fees => dod _ <- d_add_balance (fee_asset_id f) cb (fee_cycle f); d_pay cb fees
    end.
  (** The invoke context is not used while paying the coinbase. *)
  Definition no_ctx (d : dexec) : invoke_ctx :=
    MkCtx (dx_chain_id d) (wrap64 0) (wrap64 0) (dx_chain_id d) (dx_price d) (dx_epoch_id d) (dx_coinbase d) (dx_coinbase d) None.
  (** [exec], lib.rs:99-167 *)
  Definition d_exec (os : nat -> dorder) (d : dexec) (ts : list signed_tx) : res exec_err exec_resp * dexec :=
    match d_exec_txs (fun n => os (S n)) d ts with
    | (Ok rs, d1) =>
        let fees := all_cycles_used rs in
        match d_pay (dx_coinbase d1) fees (d1, no_ctx d1) with
        | (Ok _, (d2, _)) =>
            match d_commit (os O) d2 with
            | Some (root, d3) => (Ok (MkResp (map (fun r => with_root r root) rs) fees zero_bloom root), d3)
            | None => (Err ETrie, d2)
            end
        | (Err e, (d2, _)) => (Err e, d2)
        | (Panic, (d2, _)) => (Panic, d2)
        end
    | (Err e, d1) => (Err e, d1)
    | (Panic, d1) => (Panic, d1)
    end.

  (** *** create_genesis, lib.rs:49-97 *)
  Definition d_alloc_asset (a : address) (g : genesis_asset) : DM unit :=
    dod id <- dlift (map_err ETypes (hash_from_hex (rs (ga_asset_id g))));
    dod b <- dlift (map_err EFromHex (hex_decode (rs (ga_balance g))));
    d_add_balance id a (biguint_from_bytes_be b).
  Fixpoint d_alloc_assets (a : address) (l : list genesis_asset) : DM unit :=
    match l with
    | [] => dret tt
    | g :: l' => dod _ <- d_alloc_asset a g; d_alloc_assets a l'
    end.
  Fixpoint d_alloc_all (l : list genesis_alloc) : DM unit :=
    match l with
    | [] => dret tt
    | g :: l' =>
        dod a <- dlift (map_err ETypes (address_from_hex (rs (gl_address g))));
        dod _ <- d_find_or_create a;
        dod _ <- d_alloc_assets a (gl_assets g);
        d_alloc_all l'
    end.
  Definition d_genesis_body (g : genesis) : DM unit :=
    dod code <- dlift (map_err EFromHex (hex_decode (rs (gt_code (gn_system_token g)))));
    dod addr <- dlift (map_err ETypes (contract_from_code digest code (wrap64 0) CtAsset));
    dod _ <- d_register addr (gt_name (gn_system_token g)) (gt_symbol (gn_system_token g)) (u64v (gt_supply (gn_system_token g)));
    d_alloc_all (gn_state_alloc g).
  Definition d_genesis_ctx (d : dexec) : invoke_ctx :=
    MkCtx (dx_chain_id d) (wrap64 0) (wrap64 999999999999) (hash_from_empty digest) (dx_price d)
          (wrap64 0) (dx_coinbase d) (dx_coinbase d) None.
  Definition d_create_genesis (o1 o2 : dorder) (d : dexec) (g : genesis) : res exec_err hash * dexec :=
    match d_genesis_body g (d, d_genesis_ctx d) with
    | (Ok _, (d1, _)) =>
        match d_commit o2 (d_stash o1 d1) with
        | Some (root, d2) => (Ok root, d2)
        | None => (Err ETrie, d1)
        end
    | (Err e, (d1, _)) => (Err e, d1)
    | (Panic, (d1, _)) => (Panic, d1)
    end.

  (** *** from_root, lib.rs:289-356 *)
  Definition d_contract_state (db : gmap hash bytes) (top : node) (addr : bytes) : res exec_err dadapter :=
    match tr_get db top addr with
    | Some (Some v) =>
        let? root := map_err ETypes (hash_from_bytes v) in
        let? n := ok_or (tr_from root db) EInvalidStateRoot in
        Ok (da_new n)
    | Some None => Ok (da_new tr_new)
    | None => Err ETrie
    end.
  Definition d_from_root (chain_id state_root : hash) (db : gmap hash bytes) (epoch_id price : u64) (coinbase : address) : res exec_err dexec :=
    let? top := (if decide (state_root = hash_from_empty digest) then Ok tr_new
                 else ok_or (tr_from state_root db) EInvalidStateRoot) in
    let? acc := d_contract_state db top ACCOUNT_CONTRACT_ADDRESS in
    let? bank := d_contract_state db top BANK_CONTRACT_ADDRESS in
    Ok (DExec chain_id epoch_id price coinbase top acc bank db []).
End DbExec.
