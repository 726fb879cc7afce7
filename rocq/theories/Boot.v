(** * The start of a node from its configuration file: src/main.rs:40-66, 68-349,
    src/config.rs, core/network/src/config.rs:106-160.

    Simplifications: the TOML and JSON parsers are not modelled: a configuration
    is its fields, the genesis file is a [genesis] or cannot be read ([None]).
    Opening the databases succeeds.  The curve is the parameter [key_of]: the
    public key of a private key, or [None] if [Secp256k1PrivateKey::try_from]
    refuses it; [secio_ok]: [SecioKeyPair::secp256k1_raw_key] accepts it.
    [listens]: the transport can listen on the configured address.  All failures
    after [unwrap] are [Panic]. *)
From Verif Require Import Base BaseFacts Hex Types Rlp FixedCodec StateAdapter Executor Mempool Merkle Bincode ConsMsg
  Proto Wire Storage Consensus.
Local Open Scope N_scope.

(** src/config.rs:14-77: the fields [main] uses; a bootstrap's address is not
    checked and left out *)
Record raw_config := MkRawConfig {
  rw_chain_id : bytes; rw_privkey : bytes; rw_bootstraps : list bytes; rw_verifiers : list bytes;
  rw_price : u64; rw_limit : u64; rw_interval : u64; rw_pool_size : u64; rw_gap : u64 }.

Section Boot.
  Context (digest : bytes -> hash) (root_of : gmap bytes bytes -> hash)
          (key_of : bytes -> option bytes) (secio_ok : bytes -> bool).

  (** [unwrap] *)
  Definition unwrap {E A} (r : res E A) : res cn_err A := match r with Ok a => Ok a | _ => Panic end.
  Definition unwrap_opt {A} (r : option A) : res cn_err A := match r with Some a => Ok a | None => Panic end.

  (** main.rs:69-75, 154-160: the chain id; the node's address.  The private key
      is decoded without removing "0x". *)
  Definition identity (w : raw_config) : res cn_err (hash * user_address) :=
    let? chain := unwrap (hash_from_hex (rw_chain_id w)) in
    let? sk := unwrap (hex_decode (rw_privkey w)) in
    let? pk := unwrap_opt (key_of sk) in
    let? self := unwrap (user_from_pubkey digest pk) in
    Ok (chain, self).

  (** core/network/src/config.rs:119-137, 150-160: any hexadecimal text is taken
      as a public key *)
  Definition network_config (w : raw_config) : res cn_err unit :=
    let? _ := unwrap (map_res hex_decode (rw_bootstraps w)) in
    let? sk := unwrap (hex_decode (rw_privkey w)) in
    if secio_ok sk then Ok tt else Panic.

  (** main.rs:256-266: the list of validators *)
  Definition verifiers (w : raw_config) : res cn_err (list user_address) := unwrap (map_res user_from_hex (rw_verifiers w)).

  (** The configuration the rest of the model works with *)
  Definition config_of (w : raw_config) (id : hash * user_address) (g : genesis) (vs : list user_address) : config :=
    MkConfig (fst id) (snd id) (rw_price w) (rw_limit w) (rw_interval w) vs (N.to_nat (u64v (rw_pool_size w))) (rw_gap w) g.

  (** main.rs:60-66: [handle_init], then [start]; the result and what is on disk
      then.  [handle_init] reads the genesis file before it looks at the
      database; [start] reads what is configured for the network, the pool (an
      [ArrayQueue] of capacity 0 panics) and the validators in this order. *)
  Definition run_main (o1 o2 : iter_order) (w : raw_config) (g : option genesis) (listens : bool) (d : durable)
    : res cn_err node * durable :=
    match (let? id := identity w in let? g := unwrap_opt g in Ok (id, g)) with
    | Ok (id, g) =>
        let cf0 := config_of w id g [] in
        match fst (handle_init digest root_of cf0 o1 o2 d) with
        | Ok d' =>
            (let? _ := network_config w in
             if listens then
               if u64v (rw_pool_size w) =? 0 then Panic else
               let? vs := verifiers w in
               start digest (config_of w id g vs) d'
             else Panic, d')
        | Err _ => (Panic, d)
        | Panic => (Panic, d)
        end
    | _ => (Panic, d)
    end.
End Boot.
