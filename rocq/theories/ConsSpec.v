(** * ConsSpec: the vocabulary of the consensus properties. *)
From Verif Require Import Base Types FixedCodec StateAdapter Executor Mempool Merkle ConsMsg Proto Wire Storage StorageSpec Consensus.
From Coq Require Strings.String.
Import String.StringSyntax.
Delimit Scope string_scope with string.
Local Open Scope N_scope.

(** ** What can be read *)

(** A transaction and its receipt can be read by hash, and are those of that
    hash. *)
Definition readable (m : db) (h : hash) : Prop :=
  (exists t, get_transaction_by_hash rocks_col m h = Ok t /\ st_tx_hash t = h) /\
  (exists r, get_receipt rocks_col m h = Ok r /\ rc_tx_hash r = h).
Definition complete (m : db) (e : epoch) : Prop := forall h, h ∈ ep_ordered_tx_hashes e -> readable m h.

(** No stored value is longer than memory. *)
Definition db_fits (m : db) : Prop := map_Forall (fun _ v => fits v) m.

(** A chain of epochs as stored: [c] lists the epochs 0, 1, 2, ... *)
Definition stored_chain (digest : bytes -> hash) (m : db) (c : list epoch) : Prop :=
  (forall i e, c !! i = Some e ->
     eh_epoch_id (ep_header e) = N.of_nat i :> N /\
     get_epoch_by_epoch_id rocks_col m (wrap64 (N.of_nat i)) = Ok e) /\
  (forall i a b, c !! i = Some a -> c !! S i = Some b -> eh_pre_hash (ep_header b) = digest (enc_epoch a)).

(** ** Along a history *)
Section Along.
  Context (digest : bytes -> hash) (root_of : gmap bytes bytes -> hash) (show : exec_err -> rstring)
          (verify : bytes -> bytes -> bytes -> bool) (shapes : nat -> shape).
  Context (cf : config).
  Notation happens := (happens digest root_of show verify shapes cf).

  (** [C] holds of every event, in the machine it happens to. *)
  Fixpoint along (C : machine -> event -> Prop) (m : machine) (l : list event) : Prop :=
    match l with
    | [] => True
    | e :: r => C m e /\ along C (happens m e) r
    end.

  (** The epochs a node may store: those committed, those received while
      synchronising, the genesis epoch. *)
  Definition call_epochs (c : call) : list epoch :=
    match c with
    | CallCommit _ c => [pl_epoch (cm_pill c)]
    | CallSyncEpoch _ (Ok (RpEpoch e)) _ => [e]
    | _ => []
    end.
  Definition event_epochs (m : machine) (e : event) : list epoch :=
    match e with
    | EvCall c | EvCrash c _ => call_epochs c
    | EvBoot o1 o2 | EvBootCrash o1 o2 _ =>
        match genesis_state digest root_of cf o1 o2 (disk m).2 with
        | Ok (root, _) => [genesis_epoch digest cf root]
        | _ => []
        end
    end.
  Fixpoint epochs_seen (m : machine) (l : list event) : list epoch :=
    match l with
    | [] => []
    | e :: r => event_epochs m e ++ epochs_seen (happens m e) r
    end.

  (** These epochs fit in memory, and the digest does not collide on their
      headers and the storage's two fixed texts. *)
  Definition epochs_ok (l : list event) : Prop :=
    Forall (fun e => fits (wenc_epoch e)) (epochs_seen (Down (∅, ∅)) l) /\
    no_collision digest (ascii "latest_hash"%string :: ascii "latest_proof"%string ::
      map (fun e => wenc_header (ep_header e)) (epochs_seen (Down (∅, ∅)) l)).

  Definition event_call (e : event) : option call :=
    match e with EvCall c | EvCrash c _ => Some c | _ => None end.

  (** A peer answering a pull of an epoch's transactions sent those with the
      epoch's hashes. *)
  Definition replies_match (m : machine) (e : event) : Prop :=
    match event_call e with
    | Some (CallSyncEpoch _ (Ok (RpEpoch ep)) (Ok (RpTxs l))) => map st_tx_hash l = ep_ordered_tx_hashes ep
    | _ => True
    end.

  (** The engine commits under the number of the epoch it commits. *)
  Definition ids_agree (m : machine) (e : event) : Prop :=
    match event_call e with
    | Some (CallCommit id c) => id = eh_epoch_id (ep_header (pl_epoch (cm_pill c)))
    | _ => True
    end.

  (** What the engine commits and what peers send extends the chain by one:
      the number is the node's next number, which is not 0, and the epoch
      links to the node's previous hash.  A peer's epoch is only asked to link
      where the code does not check it. *)
  Definition extends (n : node) (e : epoch) : Prop :=
    eh_epoch_id (ep_header e) = cs_epoch_id (nd_status n) /\ cs_epoch_id (nd_status n) <> wrap64 0.
  Definition links (n : node) (e : epoch) : Prop := eh_pre_hash (ep_header e) = cs_prev_hash (nd_status n).
  Definition one_more (m : machine) (e : event) : Prop :=
    match m, event_call e with
    | Up n, Some (CallCommit id c) =>
        id = cs_epoch_id (nd_status n) /\ extends n (pl_epoch (cm_pill c)) /\ links n (pl_epoch (cm_pill c))
    | Up n, Some (CallSyncEpoch _ (Ok (RpEpoch ep)) _) =>
        extends n ep /\ (cs_epoch_id (nd_status n) = wrap64 1 -> links n ep)
    | _, _ => True
    end.

  (** No synchronisation; the proof handed over is for the epoch committed. *)
  Definition commits_only (m : machine) (e : event) : Prop :=
    match event_call e with
    | Some (CallSync _ _) | Some (CallSyncEpoch _ _ _) => False
    | Some (CallCommit id c) => cm_proof_epoch_id c = id
    | _ => True
    end.
End Along.

(** ** The authority list *)
Definition auth_sorted (l : list auth) : Prop :=
  forall i j a b, l !! i = Some a -> l !! j = Some b -> (i < j)%nat -> bytes_leb (au_address a) (au_address b) = true.
