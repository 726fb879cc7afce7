(** * StateAdapter: core/executor/src/adapter/contract.rs and
    core/executor/src/trie/mod.rs.

    A trie ([MPTTrie], a wrapper of cita_trie's [PatriciaTrie]) is modelled as
    the finite map it stores; its root is [root_of] of the byte map, where
    [root_of] is an arbitrary function (a parameter).  The trie database is a
    map from roots to the byte maps stored under them: [trie.commit] adds one
    entry ([light = false], core/executor/src/trie/trie_db.rs:65-84: nothing is
    ever removed).  cita_trie removes a key when an empty value is inserted;
    no caller inserts an empty value (encodings and roots are not empty). *)
From Verif Require Import Base BaseFacts Types Rlp FixedCodec.
From Coq Require Import Permutation.
Local Open Scope N_scope.

(** ** Byte level: exactly the fields of [GeneralContractStateAdapter],
    contract.rs:19-26. *)
Record badapter := MkBAdapter {
  ba_trie : gmap bytes bytes; ba_cache : gmap bytes bytes; ba_stash : gmap bytes bytes }.

Definition ba_new (t : gmap bytes bytes) : badapter := MkBAdapter t ∅ ∅. (* contract.rs:29-36 *)

(** A [ContractSchema] (protocol/src/traits/executor/mod.rs): key and value
    types with their [encode_fixed]/[decode_fixed]. *)
Record schema (K V : Type) := MkSchema {
  sc_ekey : K -> bytes; sc_dkey : bytes -> rlp_res K;
  sc_eval : V -> bytes; sc_dval : bytes -> rlp_res V }.
Arguments MkSchema {K V}. Arguments sc_ekey {K V}. Arguments sc_dkey {K V}.
Arguments sc_eval {K V}. Arguments sc_dval {K V}.

(** core/executor/src/fixed_types/mod.rs (schemas) *)
Definition account_schema : schema address account :=
  MkSchema enc_address dec_address enc_account dec_account.
Definition asset_schema : schema hash asset :=
  MkSchema enc_hash dec_hash enc_asset dec_asset.

Section Byte.
  Context {K V : Type} (s : schema K V).

  (** contract.rs:40-61 *)
  Definition ba_get (a : badapter) (k : K) : rlp_res (option V) :=
    match ba_cache a !! sc_ekey s k with
    | Some v => rmap Some (sc_dval s v)
    | None =>
      match ba_stash a !! sc_ekey s k with
      | Some v => rmap Some (sc_dval s v)
      | None =>
        match ba_trie a !! sc_ekey s k with
        | Some v => rmap Some (sc_dval s v)
        | None => Ok None
        end
      end
    end.

  (** contract.rs:63-78 *)
  Definition ba_contains (a : badapter) (k : K) : bool :=
    match ba_cache a !! sc_ekey s k with
    | Some _ => true
    | None => match ba_stash a !! sc_ekey s k with
              | Some _ => true
              | None => match ba_trie a !! sc_ekey s k with Some _ => true | None => false end
              end
    end.

  (** contract.rs:80-88 *)
  Definition ba_insert (a : badapter) (k : K) (v : V) : badapter :=
    MkBAdapter (ba_trie a) (<[sc_ekey s k := sc_eval s v]> (ba_cache a)) (ba_stash a).
End Byte.

(** contract.rs:90-93 *)
Definition ba_revert (a : badapter) : badapter := MkBAdapter (ba_trie a) ∅ (ba_stash a).

(** [for (k, v) in map.drain() { target.insert(k, v) }]; [l] is the list of
    entries in whatever order the hash map yields them. *)
Definition insert_all {K V} `{Countable K} (l : list (K * V)) (m : gmap K V) : gmap K V :=
  fold_left (fun acc kv => <[kv.1 := kv.2]> acc) l m.

(** contract.rs:95-101; [l] is the drain order of the cache. *)
Definition ba_stash_op (l : list (bytes * bytes)) (a : badapter) : badapter :=
  MkBAdapter (ba_trie a) ∅ (insert_all l (ba_stash a)).

(** contract.rs:103-110 without the root (see [Executor.ad_commit_root]);
    [l] is the drain order of the stash. *)
Definition ba_commit_op (l : list (bytes * bytes)) (a : badapter) : badapter :=
  MkBAdapter (insert_all l (ba_trie a)) (ba_cache a) ∅.

(** ** Typed level.  The same adapter with keys and values before encoding:
    the level at which the executor is modelled.  [sim] below relates it to
    the byte level. *)
Record adapter (K V : Type) `{Countable K} := MkAdapter {
  ad_trie : gmap K V; ad_cache : gmap K V; ad_stash : gmap K V }.
Arguments MkAdapter {K V _ _}.
Arguments ad_trie {K V _ _}. Arguments ad_cache {K V _ _}. Arguments ad_stash {K V _ _}.

Section Typed.
  Context {K V : Type} `{Countable K}.
  Implicit Types a : adapter K V.

  Definition ad_new (t : gmap K V) : adapter K V := MkAdapter t ∅ ∅.

  Definition ad_get a (k : K) : option V :=
    match ad_cache a !! k with
    | Some v => Some v
    | None => match ad_stash a !! k with
              | Some v => Some v
              | None => ad_trie a !! k
              end
    end.

  Definition ad_contains a (k : K) : bool :=
    match ad_cache a !! k with
    | Some _ => true
    | None => match ad_stash a !! k with
              | Some _ => true
              | None => match ad_trie a !! k with Some _ => true | None => false end
              end
    end.

  Definition ad_insert a (k : K) (v : V) : adapter K V :=
    MkAdapter (ad_trie a) (<[k := v]> (ad_cache a)) (ad_stash a).

  Definition ad_revert a : adapter K V := MkAdapter (ad_trie a) ∅ (ad_stash a).

  Definition ad_stash_op (l : list (K * V)) a : adapter K V :=
    MkAdapter (ad_trie a) ∅ (insert_all l (ad_stash a)).

  Definition ad_commit_op (l : list (K * V)) a : adapter K V :=
    MkAdapter (insert_all l (ad_trie a)) (ad_cache a) ∅.
End Typed.

(** ** Encoding a typed map as the byte map of a trie, and reading it back. *)
Definition enc_map {K V} `{Countable K} (s : schema K V) (m : gmap K V) : gmap bytes bytes :=
  list_to_map (map (fun kv => (sc_ekey s kv.1, sc_eval s kv.2)) (map_to_list m)).

Fixpoint dec_entries {K V} (s : schema K V) (l : list (bytes * bytes)) : rlp_res (list (K * V)) :=
  match l with
  | [] => Ok []
  | (k, v) :: l' =>
      let? k' := sc_dkey s k in
      let? v' := sc_dval s v in
      let? r := dec_entries s l' in
      Ok ((k', v') :: r)
  end.

Definition dec_map {K V} `{Countable K} (s : schema K V) (m : gmap bytes bytes) : rlp_res (gmap K V) :=
  rmap list_to_map (dec_entries s (map_to_list m)).
