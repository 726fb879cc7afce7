(** * ConsCrypto: core/consensus/src/util.rs, the cryptography handed to
    overlord.

    secp256k1 is an external crate: [sec_sign key msg] and [sec_verify msg sig
    pubkey] stand for [Secp256k1::sign_message] and
    [Secp256k1::verify_signature], which can fail. *)
From Verif Require Import Base Hex Types.

Inductive cr_err := CrCrypto | CrTypes (e : types_err).

Section Crypto.
  Context (digest : bytes -> hash)
          (sec_sign : bytes -> bytes -> option bytes) (sec_verify : bytes -> bytes -> bytes -> bool).

  (** [struct OverlordCrypto], util.rs:16-20 *)
  Record crypto := MkCrypto { cr_public : bytes; cr_private : bytes }.

  (** [hash], util.rs:23-25 *)
  Definition cr_hash (msg : bytes) : bytes := sbytes (digest msg).

  (** [sign], util.rs:27-35: the public key, then the signature *)
  Definition cr_sign (c : crypto) (h : bytes) : res cr_err bytes :=
    match sec_sign (cr_private c) h with
    | Some s => Ok (cr_public c ++ s)
    | None => Err CrCrypto
    end.

  (** [verify_signature], util.rs:37-51; [Bytes::split_off(33)] panics on
      shorter ones. *)
  Definition cr_verify (signature h : bytes) : res cr_err bytes :=
    if (length signature <? 33)%nat then Panic
    else
      let pub := firstn 33 signature in
      let sig := skipn 33 signature in
      if sec_verify h sig pub then
        let? a := map_err CrTypes (user_from_pubkey digest pub) in Ok (ua a)
      else Err CrCrypto.

  (** [aggregate_signatures], util.rs:53-59 *)
  Definition cr_aggregate (signatures voters : list bytes) : res cr_err bytes := Ok [].

  (** [AggregatedSignature] of overlord (external crate) *)
  Record agg_signature := MkAgg { ag_signature : bytes; ag_bitmap : bytes }.
  (** [verify_aggregated_signature], util.rs:61-66 *)
  Definition cr_verify_aggregated (s : agg_signature) : res cr_err unit := Ok tt.

  (** [check_proof], consensus.rs:245-247 *)
  Definition check_proof (epoch_id : u64) (p : proof) : res cr_err unit := Ok tt.
End Crypto.
