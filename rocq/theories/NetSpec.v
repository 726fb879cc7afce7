(** * Specification vocabulary for the network properties, independent of the
    parsing functions of the model. *)
From Coq Require Import List Bool NArith.
From Verif Require Import Base Endpoint.
Import ListNotations.
Local Open Scope N_scope.

(** [url_components s cs]: [s] is [cs], each non-empty and slash-free, laid
    out with at least one slash between two of them and any number of slashes
    before, between and after. *)
Inductive url_components : bytes -> list bytes -> Prop :=
  | uc_nil : url_components [] []
  | uc_slash s cs : url_components s cs -> url_components (slash :: s) cs
  | uc_last c : c <> [] -> ~ In slash c -> url_components c [c]
  | uc_comp c s cs : c <> [] -> ~ In slash c -> url_components s cs -> url_components (c ++ slash :: s) (c :: cs).

(** The text a scheme requires at the start. *)
Definition scheme_text (s : scheme) : bytes :=
  match s with Gossip => GOSSIP_SCHEME | RpcCall => RPC_CALL_SCHEME | RpcResponse => RPC_RESPONSE_SCHEME end.

(** [n] written in decimal, possibly with leading zeros. *)
Inductive decimal : bytes -> N -> Prop :=
  | dec_one c : 48 <= bN c <= 57 -> decimal [c] (bN c - 48)
  | dec_snoc t n c : decimal t n -> 48 <= bN c <= 57 -> decimal (t ++ [c]) (10 * n + (bN c - 48)).

(** What Rust's [u64] parser accepts. *)
Definition u64_text (t : bytes) (n : N) : Prop :=
  n < two64 /\ (decimal t n \/ exists t', t = Byte.x2b :: t' /\ decimal t' n).

(** Two urls name the same endpoint: same first three components. *)
Definition same_endpoint (u1 u2 : bytes) : Prop :=
  exists c0 c1 c2 r1 r2, url_components u1 (c0 :: c1 :: c2 :: r1) /\ url_components u2 (c0 :: c1 :: c2 :: r2).
