(** * What the peer manager's properties (C74-C78, C83, C84) talk about: the
    history of network events, independently of the manager's tables. *)
From Coq Require Import List Bool NArith Lia.
From stdpp Require Import base decidable list gmap.
From Verif Require Import Base Types PeerManager.
Import ListNotations.
Local Open Scope N_scope.

Section Spec.
  Context (digest : bytes -> hash) (peer_id : pubkey -> pid).

  (** An opened session, as reported to the manager. *)
  Definition opens (a : action) (pk : pubkey) (n : sid) : Prop :=
    exists addr ty, a = AEvent (AttachPeerSession pk n addr ty).
  (** [a] opens a session of peer [p]. *)
  Definition opens_peer (a : action) (p : pid) : Prop :=
    exists pk n, opens a pk n /\ peer_id pk = p.
  (** [a] reports a session of peer [p] closed. *)
  Definition closes_peer (a : action) (p : pid) : Prop :=
    exists n ty, a = AEvent (DetachPeerSession p n ty).

  (** [n] is the latest session opened with the holder of [pk], and no session
      of that peer has been reported closed since. *)
  Definition latest_session (h : list (clock * action)) (pk : pubkey) (n : sid) : Prop :=
    exists pre c a post, h = pre ++ (c, a) :: post /\ opens a pk n /\
      forall c' a', In (c', a') post -> ~ opens_peer a' (peer_id pk) /\ ~ closes_peer a' (peer_id pk).

  (** session [n] was, at some time in [h], opened with peer [p] *)
  Definition ever_session (h : list (clock * action)) (p : pid) (n : sid) : Prop :=
    exists c a pk, In (c, a) h /\ opens a pk n /\ peer_id pk = p.

  (** The transport never uses a session number twice. *)
  Definition opened_sessions (h : list (clock * action)) : list sid :=
    flat_map (fun x => match snd x with AEvent (AttachPeerSession _ n _ _) => [n] | _ => [] end) h.
  Definition sessions_distinct (h : list (clock * action)) : Prop := NoDup (opened_sessions h).

  (** The transport refuses connections to ourself, so no event is about us. *)
  Definition about_other (cfg : config) (a : action) : Prop :=
    match a with
    | AEvent (AttachPeerSession pk _ _ _) => peer_id pk <> our_id peer_id cfg
    | AEvent (DetachPeerSession p _ _) | AEvent (RemovePeer p) | AEvent (RetryPeerLater p) =>
        p <> our_id peer_id cfg
    | _ => True
    end.
  Definition never_about_us (cfg : config) (h : list (clock * action)) : Prop :=
    forall c a, In (c, a) h -> about_other cfg a.

  (** [a] says that peer [p] ([n] being its session) is to be dropped or
      replaced. *)
  Definition drops (h : list (clock * action)) (p : pid) (a : action) : Prop :=
    opens_peer a p \/ closes_peer a p \/
    a = AEvent (RemovePeer p) \/ a = AEvent (RetryPeerLater p) \/
    exists n, a = AEvent (RemovePeerBySession n) /\ ever_session h p n.

  (** the public keys seen: our own, those loaded or configured, those of
      opened sessions *)
  Definition opened_keys (h : list (clock * action)) : list pubkey :=
    flat_map (fun x => match snd x with AEvent (AttachPeerSession pk _ _ _) => [pk] | _ => [] end) h.

  (** Peers the manager tries to dial in an action. *)
  Definition dials_peer (a : action) (p : pid) : Prop :=
    match a with ARoutine picks _ => In p picks | _ => False end.
  Definition dials_addr (out : output) (addr : maddr) : Prop :=
    exists addrs, In (Connect addrs) (fst out) /\ In addr addrs.
End Spec.
