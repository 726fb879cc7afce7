(** * The file of known peers: core/network/src/peer_manager/persist.rs, with the
    serde attributes of peer.rs and the start of the network service.

    Simplifications: [PublicKey::encode]/[decode] (tentacle-secio) and the bytes
    of a [Multiaddr] (crate multiaddr) are parameters; the order in which a
    [HashSet] is written is a parameter; I/O errors only as a file that cannot
    be read ([None]).  [File::create] and [write_all] are modelled by the states
    of the file a crash can leave ([crash_files]). *)
From Coq Require Import List Bool NArith Lia.
From stdpp Require Import base decidable list gmap.
From Verif Require Import Base BaseFacts Types Rlp RlpFacts Bincode PeerManager.
Import ListNotations.
Local Open Scope N_scope.

Section File.
  Context (pk_enc : pubkey -> bytes) (pk_dec : bytes -> option pubkey)
          (ma_enc : maddr -> bytes) (ma_dec : bytes -> option maddr)
          (order : gset maddr -> list maddr).

  (** serde's [Option<IpAddr>] in bincode: one byte; the variant as [u32]; the
      octets.  An address of a session is [Ip4] or [Ip6] (common.rs:44-56), the
      last case does not occur. *)
  Definition benc_ip (ip : option proto) : bytes :=
    match ip with
    | None => [x00]
    | Some (Ip4 b) => x01 :: le 4 0 ++ b
    | Some (Ip6 b) => x01 :: le 4 1 ++ b
    | Some _ => x01 :: le 4 2
    end.
  Definition bdec_ip : bdec (option proto) := fun b =>
    match take_n 1 b with
    | Some (t, r) =>
        if bytes_eqb t [x00] then Some (None, r)
        else if bytes_eqb t [x01] then
          match dec_le 4 r with
          | Some (0, r) => match take_n 4 r with Some (o, r) => Some (Some (Ip4 o), r) | None => None end
          | Some (1, r) => match take_n 16 r with Some (o, r) => Some (Some (Ip6 o), r) | None => None end
          | _ => None
          end
        else None
    | None => None
    end.

  Definition bdec_addr : bdec maddr := fun b =>
    match bdec_bytes b with
    | Some (x, r) => match ma_dec x with Some a => Some (a, r) | None => None end
    | None => None
    end.

  (** peer.rs:29-56: the fields in their order, without those marked
      [serde(skip)] *)
  Definition benc_state (st : peer_state) : bytes :=
    benc_ip (connection_ip st) ++ benc_vec (fun a => benc_bytes (ma_enc a)) (order (addr_set st)) ++
    le 8 (connect_at st) ++ le 8 (disconnect_at st) ++ le 8 (alive st).
  Definition bdec_state (c : clock) : bdec peer_state := fun b =>
    match bdec_ip b with Some (ip, b) =>
    match bdec_vec bdec_addr b with Some (l, b) =>
    match dec_le 8 b with Some (ca, b) =>
    match dec_le 8 b with Some (da, b) =>
    match dec_le 8 b with Some (al, b) =>
      Some (PeerState ip (list_to_set l) 0 (inst c) ca da 0 al, b)
    | None => None end | None => None end | None => None end | None => None end | None => None end.

  (** persist.rs:92-139, [PeerPubKey] *)
  Definition benc_peer (x : pubkey * peer_state) : bytes := benc_bytes (pk_enc (fst x)) ++ benc_state (snd x).
  Definition bdec_peer (c : clock) : bdec (pubkey * peer_state) := fun b =>
    match bdec_bytes b with
    | Some (k, b) => match pk_dec k with
                     | Some pk => match bdec_state c b with Some (st, b) => Some ((pk, st), b) | None => None end
                     | None => None
                     end
    | None => None
    end.

  (** persist.rs:34-40: what is written *)
  Definition peer_file (l : list (pubkey * peer_state)) : bytes := benc_vec benc_peer l.
  (** persist.rs:44-53, [load]: [None] is an error.  bincode ignores what follows
      the last peer. *)
  Definition load (c : clock) (file : option bytes) : option (list (pubkey * peer_state)) :=
    match file with
    | Some b => match bdec_vec (bdec_peer c) b with Some (l, _) => Some l | None => None end
    | None => None
    end.

  (** persist.rs:34-40, the contents a crash during [save] can leave: those of
      before, nothing ([File::create] truncates), any beginning of the new
      ones. *)
  Inductive crash_files (old : option bytes) (l : list (pubkey * peer_state)) : option bytes -> Prop :=
    | CrashBefore : crash_files old l old
    | CrashWriting : forall k, crash_files old l (Some (firstn k (peer_file l))).

  (** service.rs:136-143: the peers the manager starts with; an error is only
      logged. *)
  Definition loaded (c : clock) (file : option bytes) : list (pubkey * peer_state) :=
    match load c file with Some l => l | None => [] end.
  (** service.rs:132-146, on a file; [insert_peers] and [bootstrap] are those of
      PeerManager.v *)
  Definition start_on (digest : bytes -> hash) (peer_id : pubkey -> pid) (cfg : config) (c : clock) (file : option bytes) : pm :=
    let s := insert_peers digest peer_id c (loaded c file) (pm_new digest peer_id cfg c) in
    match bootstraps cfg with [] => s | _ => fst (bootstrap digest peer_id cfg c s) end.
End File.
