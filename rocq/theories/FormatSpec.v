(** * FormatSpec: the published encodings, stated as relations.

    Nothing here refers to the encoders or decoders of the model: the first
    part is RLP as in Appendix B of the Ethereum Yellow Paper, the second the
    protocol-buffers wire format with proto3 defaults, the third and fourth
    say which fields of which type are written, in which order and under
    which tag. *)
From Verif Require Import Base Types.
Local Open Scope N_scope.

(** ** RLP *)

(** The number a byte string stands for, most significant byte first. *)
Fixpoint number (d : bytes) : N :=
  match d with
  | [] => 0
  | x :: r => Byte.to_N x * 256 ^ N.of_nat (length r) + number r
  end.

(** The shortest byte string standing for a number. *)
Definition shortest (n : N) (d : bytes) : Prop :=
  number d = n /\ match d with [] => True | x :: _ => Byte.to_N x <> 0 end.

(** What is encoded: byte strings, numbers (without leading zeros, zero being
    the empty string), big numbers (the same, but zero is one zero byte) and
    lists. *)
Inductive item :=
| Str (b : bytes)
| Num (n : N)
| Big (n : N)
| Lst (l : list item).

(** The prefix announcing [n] bytes. *)
Inductive prefix (short long n : N) : bytes -> Prop :=
| prefix_short p : n <= 55 -> Byte.to_N p = short + n -> prefix short long n [p]
| prefix_long p d : 55 < n -> shortest n d -> Byte.to_N p = long + N.of_nat (length d) ->
    prefix short long n (p :: d).

Inductive rlp : item -> bytes -> Prop :=
| rlp_byte x : Byte.to_N x < 128 -> rlp (Str [x]) [x]
| rlp_str b p : (forall x, b = [x] -> 128 <= Byte.to_N x) ->
    prefix 128 183 (N.of_nat (length b)) p -> rlp (Str b) (p ++ b)
| rlp_num n d e : shortest n d -> rlp (Str d) e -> rlp (Num n) e
| rlp_big n e : n <> 0 -> rlp (Num n) e -> rlp (Big n) e
| rlp_zero e : rlp (Str [x00]) e -> rlp (Big 0) e
| rlp_list l body p : rlps l body -> prefix 192 247 (N.of_nat (length body)) p -> rlp (Lst l) (p ++ body)
with rlps : list item -> bytes -> Prop :=
| rlps_nil : rlps [] []
| rlps_cons t l e body : rlp t e -> rlps l body -> rlps (t :: l) (e ++ body).

(** ** Protocol buffers *)

(** Base-128 varints, least significant group first. *)
Inductive vint : N -> bytes -> Prop :=
| vint_last n x : n < 128 -> Byte.to_N x = n -> vint n [x]
| vint_more n x r : 128 <= n -> Byte.to_N x = n mod 128 + 128 -> vint (n / 128) r -> vint n (x :: r).

(** A field's value: a number or byte string that is left out when it is the
    default, an element of a repeated field of byte strings, or a message,
    both always written. *)
Inductive value :=
| VNum (n : N)
| VBytes (b : bytes)
| VItem (b : bytes)
| VMsg (fields : list (N * value)).

Inductive message : list (N * value) -> bytes -> Prop :=
| msg_nil : message [] []
| msg_zero t fs b : message fs b -> message ((t, VNum 0) :: fs) b
| msg_num t n key v fs b : n <> 0 -> vint (8 * t) key -> vint n v -> message fs b ->
    message ((t, VNum n) :: fs) (key ++ v ++ b)
| msg_empty t fs b : message fs b -> message ((t, VBytes []) :: fs) b
| msg_bytes t x fs b : x <> [] -> message ((t, VItem x) :: fs) b -> message ((t, VBytes x) :: fs) b
| msg_item t x key len fs b : vint (8 * t + 2) key -> vint (N.of_nat (length x)) len -> message fs b ->
    message ((t, VItem x) :: fs) (key ++ len ++ x ++ b)
| msg_sub t sub x fs b : message sub x -> message ((t, VItem x) :: fs) b ->
    message ((t, VMsg sub) :: fs) b.

(** ** The consensus encodings (hashed and signed): RLP *)

Definition hexdigit (n : N) : byte :=
  nth (N.to_nat n)
    [x30; x31; x32; x33; x34; x35; x36; x37; x38; x39; x61; x62; x63; x64; x65; x66] x00.
Definition hextext (b : bytes) : bytes :=
  flat_map (fun x => [hexdigit (Byte.to_N x / 16); hexdigit (Byte.to_N x mod 16)]) b.

Definition hash_f (h : hash) : item := Lst [Str (sbytes h)].
Definition user_f (a : user_address) : item := Lst [Str (ua a)].
Definition contract_f (a : contract_address) : item := Lst [Str (ca a)].
Definition fee_f (f : fee) : item := Lst [hash_f (fee_asset_id f); Num (u64v (fee_cycle f))].
Definition asset_f (a : asset) : item :=
  Lst [hash_f (as_id a); contract_f (as_manage_contract a); Str (rs (as_name a));
       hash_f (as_storage_root a); Big (as_supply a); Str (rs (as_symbol a))].

(** Kinds of contract in transactions and receipts. *)
Definition kind_f (t : contract_type) : N :=
  match t with CtAsset => 0 | CtApp => 1 | CtLibrary => 2 | CtNative => 3 end.

(** A transaction begins with the number of its action, chain, fee, nonce and
    timeout; here hashes and addresses are plain strings, not lists. *)
Definition head_f (action : N) (r : raw_tx) : list item :=
  [Num action; Str (sbytes (rt_chain_id r)); Str (sbytes (fee_asset_id (rt_fee r)));
   Num (u64v (fee_cycle (rt_fee r))); Str (sbytes (rt_nonce r)); Num (u64v (rt_timeout r))].
Inductive transaction_f : raw_tx -> item -> Prop :=
| transfer_f chain nonce timeout f receiver asset amount :
    let r := MkRaw chain nonce timeout f (Transfer receiver (MkCarrying asset amount)) in
    transaction_f r (Lst (head_f 0 r ++ [Big amount; Str (sbytes asset); Str (ua receiver)]))
| deploy_f chain nonce timeout f code kind :
    let r := MkRaw chain nonce timeout f (Deploy code kind) in
    transaction_f r (Lst (head_f 1 r ++ [Str code; Num (kind_f kind)]))
| call_paying_f chain nonce timeout f contract method args asset amount :
    let r := MkRaw chain nonce timeout f (Call contract method args (Some (MkCarrying asset amount))) in
    transaction_f r (Lst (head_f 2 r ++ [Lst (map (fun a => Str (hextext a)) args);
                                         Big amount; Str (sbytes asset); Str (ca contract); Str (rs method)]))
| call_f chain nonce timeout f contract method args :
    let r := MkRaw chain nonce timeout f (Call contract method args None) in
    transaction_f r (Lst (head_f 3 r ++ [Lst (map (fun a => Str (hextext a)) args);
                                         Str (ca contract); Str (rs method)])).
Inductive signed_f : signed_tx -> item -> Prop :=
| signed_f_intro raw t h pubkey signature : transaction_f raw t ->
    signed_f (MkSigned raw h pubkey signature) (Lst [Str pubkey; t; Str signature; hash_f h]).

Inductive result_f : receipt_result -> item -> Prop :=
| transferred_f receiver asset before after :
    result_f (RTransfer receiver asset before after)
      (Lst [Num 0; Big after; hash_f asset; Big before; user_f receiver])
| deployed_f contract kind :
    result_f (RDeploy contract kind) (Lst [Num 1; contract_f contract; Num (kind_f kind)])
| called_f contract value bloom :
    result_f (RCall contract value bloom) (Lst [Num 2; contract_f contract; Str (sbytes bloom); Str value])
| failed_f system user :
    result_f (RFail system user) (Lst [Num 3; Str (rs system); Str (rs user)]).
Inductive receipt_f : receipt -> item -> Prop :=
| receipt_f_intro state epoch tx cycles result t : result_f result t ->
    receipt_f (MkReceipt state epoch tx cycles result)
      (Lst [fee_f cycles; Num (u64v epoch); t; hash_f state; hash_f tx]).

Definition proof_f (p : proof) : item :=
  Lst [Str (pf_bitmap p); hash_f (pf_epoch_hash p); Num (u64v (pf_epoch_id p)); Num (u64v (pf_round p));
       Str (pf_signature p)].
Definition validator_f (v : validator) : item :=
  Lst [user_f (va_address v); Num (Byte.to_N (va_propose_weight v)); Num (Byte.to_N (va_vote_weight v))].
Definition header_f (h : epoch_header) : item :=
  Lst [hash_f (eh_chain_id h); Lst (map hash_f (eh_confirm_root h)); Num (u64v (eh_cycles_used h));
       Num (u64v (eh_epoch_id h)); Str (sbytes (eh_logs_bloom h)); hash_f (eh_order_root h);
       hash_f (eh_pre_hash h); proof_f (eh_proof h); user_f (eh_proposer h);
       Lst (map hash_f (eh_receipt_root h)); hash_f (eh_state_root h); Num (u64v (eh_timestamp h));
       Num (u64v (eh_validator_version h)); Lst (map validator_f (eh_validators h))].
Definition epoch_f (e : epoch) : item :=
  Lst [header_f (ep_header e); Lst (map hash_f (ep_ordered_tx_hashes e))].
Definition pill_f (p : pill) : item :=
  Lst [epoch_f (pl_epoch p); Lst (map hash_f (pl_propose_hashes p))].
Definition epoch_id_f (e : epoch_id_t) : item := Lst [Num (u64v (eid_id e))].

Definition gtoken_f (t : genesis_token) : item :=
  Lst [Str (rs (gt_code t)); Str (rs (gt_name t)); Num (u64v (gt_supply t)); Str (rs (gt_symbol t))].
Definition gasset_f (a : genesis_asset) : item := Lst [Str (rs (ga_asset_id a)); Str (rs (ga_balance a))].
Definition galloc_f (a : genesis_alloc) : item :=
  Lst [Str (rs (gl_address a)); Lst (map gasset_f (gl_assets a))].
Definition genesis_f (g : genesis) : item :=
  Lst [Str (rs (gn_prevhash g)); Lst (map galloc_f (gn_state_alloc g)); gtoken_f (gn_system_token g);
       Num (u64v (gn_timestamp g))].

(** Accounts (the values of the state trie).  The entries of a map are written
    once each, in the order of their keys' bytes. *)
Definition before (a b : bytes) : Prop :=
  exists p x y r s, a = p ++ x :: r /\ b = p ++ y :: s /\ Byte.to_N x < Byte.to_N y.
Fixpoint ordered (l : list bytes) : Prop :=
  match l with [] => True | a :: r => (forall b, In b r -> before a b) /\ ordered r end.
Definition listing `{Countable K} {V} (key : K -> bytes) (m : gmap K V) (l : list (K * V)) : Prop :=
  ordered (map (fun p => key (fst p)) l) /\ forall k v, In (k, v) l <-> m !! k = Some v.

Inductive user_entry_f : hash * asset_info -> item -> Prop :=
| user_entry_intro asset balance approved l : listing ca approved l ->
    user_entry_f (asset, MkAssetInfo balance approved)
      (Lst [Lst (map (fun p => Lst [contract_f (fst p); Big (ap_max (snd p)); Big (ap_used (snd p))]) l);
            Big balance; hash_f asset]).
Inductive account_f : account -> item -> Prop :=
| user_account_f nonce assets l ts : listing sbytes assets l -> Forall2 user_entry_f l ts ->
    account_f (AccUser (MkUserAccount nonce assets)) (Lst [Num 0; Lst ts; Num (u64v nonce)])
| contract_account_f nonce assets root l : listing sbytes assets l ->
    account_f (AccContract (MkContractAccount nonce assets root))
      (Lst [Num 1; Lst (map (fun p => Lst [Big (snd p); hash_f (fst p)]) l); Num (u64v nonce); hash_f root]).

(** ** The network and storage encodings: protocol buffers *)

(** A big number as bytes: shortest form, zero being one zero byte. *)
Inductive amount_m : N -> value -> Prop :=
| amount_zero : amount_m 0 (VMsg [(1, VBytes [x00])])
| amount_pos n d : n <> 0 -> shortest n d -> amount_m n (VMsg [(1, VBytes d)]).
Definition hash_m (h : hash) : value := VMsg [(1, VBytes (sbytes h))].
(** [MerkleRoot] and [AssetID] *)
Definition id_m (h : hash) : value := VMsg [(1, hash_m h)].
Definition user_m (a : user_address) : value := VMsg [(1, VMsg [(1, VBytes (ua a))])].
(** An address' kind is told by its first byte. *)
Inductive contract_m : contract_address -> value -> Prop :=
| contract_m_intro a n rest :
    (exists k, ca a = k :: rest /\ (k = x20 /\ n = 0 \/ k = x22 /\ n = 1 \/ k = x21 /\ n = 2 \/ k = x23 /\ n = 3)) ->
    contract_m a (VMsg [(1, VMsg [(1, VBytes (ca a))]); (2, VNum n)]).
Definition fee_m (f : fee) : value := VMsg [(1, id_m (fee_asset_id f)); (2, VNum (u64v (fee_cycle f)))].
Inductive carrying_m : carrying_asset -> value -> Prop :=
| carrying_m_intro asset n v : amount_m n v -> carrying_m (MkCarrying asset n) (VMsg [(1, id_m asset); (2, v)]).
Inductive asset_m : asset -> list (N * value) -> Prop :=
| asset_m_intro id name symbol supply manager root s m : amount_m supply s -> contract_m manager m ->
    asset_m (MkAsset id name symbol supply manager root)
      [(1, id_m id); (2, VBytes (rs name)); (3, VBytes (rs symbol)); (4, s); (5, m); (6, id_m root)].

Inductive action_m : tx_action -> N * value -> Prop :=
| transfer_m receiver c v : carrying_m c v ->
    action_m (Transfer receiver c) (5, VMsg [(1, user_m receiver); (2, v)])
| approve_m spender asset n s v : contract_m spender s -> amount_m n v ->
    action_m (Approve spender asset n) (6, VMsg [(1, s); (2, id_m asset); (3, v)])
| deploy_m code kind : action_m (Deploy code kind) (7, VMsg [(1, VBytes code); (2, VNum (kind_f kind))])
| call_m contract method args c : contract_m contract c ->
    action_m (Call contract method args None)
      (8, VMsg ([(1, c); (2, VBytes (rs method))] ++ map (fun a => (3, VItem a)) args))
| call_paying_m contract method args carrying c v : contract_m contract c -> carrying_m carrying v ->
    action_m (Call contract method args (Some carrying))
      (8, VMsg ([(1, c); (2, VBytes (rs method))] ++ map (fun a => (3, VItem a)) args ++ [(4, v)])).
Inductive transaction_m : raw_tx -> list (N * value) -> Prop :=
| transaction_m_intro chain nonce timeout f action a : action_m action a ->
    transaction_m (MkRaw chain nonce timeout f action)
      [(1, hash_m chain); (2, hash_m nonce); (3, VNum (u64v timeout)); (4, fee_m f); a].
Inductive signed_m : signed_tx -> list (N * value) -> Prop :=
| signed_m_intro raw fs h pubkey signature : transaction_m raw fs ->
    signed_m (MkSigned raw h pubkey signature)
      [(1, VMsg fs); (2, hash_m h); (3, VBytes pubkey); (4, VBytes signature)].

Inductive result_m : receipt_result -> N * value -> Prop :=
| transferred_m receiver asset before after b a : amount_m before b -> amount_m after a ->
    result_m (RTransfer receiver asset before after) (5, VMsg [(1, user_m receiver); (2, id_m asset); (3, b); (4, a)])
| approved_m spender asset n s v : contract_m spender s -> amount_m n v ->
    result_m (RApprove spender asset n) (6, VMsg [(1, s); (2, id_m asset); (3, v)])
| deployed_m contract kind c : contract_m contract c ->
    result_m (RDeploy contract kind) (7, VMsg [(1, c); (2, VNum (kind_f kind))])
| called_m contract value bloom c : contract_m contract c ->
    result_m (RCall contract value bloom) (8, VMsg [(1, c); (2, VBytes value); (3, VBytes (sbytes bloom))])
| failed_m system user :
    result_m (RFail system user) (9, VMsg [(1, VBytes (rs system)); (2, VBytes (rs user))]).
Inductive receipt_m : receipt -> list (N * value) -> Prop :=
| receipt_m_intro state epoch tx cycles result r : result_m result r ->
    receipt_m (MkReceipt state epoch tx cycles result)
      [(1, hash_m state); (2, VNum (u64v epoch)); (3, hash_m tx); (4, fee_m cycles); r].

Definition proof_m (p : proof) : list (N * value) :=
  [(1, VNum (u64v (pf_epoch_id p))); (2, VNum (u64v (pf_round p))); (3, hash_m (pf_epoch_hash p));
   (4, VBytes (pf_signature p)); (5, VBytes (pf_bitmap p))].
Definition validator_m (v : validator) : list (N * value) :=
  [(1, user_m (va_address v)); (2, VNum (Byte.to_N (va_propose_weight v))); (3, VNum (Byte.to_N (va_vote_weight v)))].
Definition header_m (h : epoch_header) : list (N * value) :=
  [(1, hash_m (eh_chain_id h)); (2, VNum (u64v (eh_epoch_id h))); (3, hash_m (eh_pre_hash h));
   (4, VNum (u64v (eh_timestamp h))); (5, VBytes (sbytes (eh_logs_bloom h))); (6, hash_m (eh_order_root h))] ++
  map (fun x => (7, hash_m x)) (eh_confirm_root h) ++
  [(8, hash_m (eh_state_root h))] ++ map (fun x => (9, hash_m x)) (eh_receipt_root h) ++
  [(10, VNum (u64v (eh_cycles_used h))); (11, user_m (eh_proposer h)); (12, VMsg (proof_m (eh_proof h)));
   (13, VNum (u64v (eh_validator_version h)))] ++
  map (fun x => (14, VMsg (validator_m x))) (eh_validators h).
Definition epoch_m (e : epoch) : list (N * value) :=
  (1, VMsg (header_m (ep_header e))) :: map (fun x => (2, hash_m x)) (ep_ordered_tx_hashes e).
Definition pill_m (p : pill) : list (N * value) :=
  (1, VMsg (epoch_m (pl_epoch p))) :: map (fun x => (2, hash_m x)) (pl_propose_hashes p).
Definition epoch_id_m (e : epoch_id_t) : list (N * value) := [(1, VNum (u64v (eid_id e)))].
