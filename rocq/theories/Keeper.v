(** * From the transport to the peer manager: model of
    core/network/src/connection/keeper.rs, protocols/ping.rs (the event
    reporter), peer_manager/disc.rs and peer_manager/ident.rs, and of the
    channel between them and the manager (service.rs:110-160).

    Simplifications:
    - The transport (crate tentacle) and its protocol crates (tentacle_ping,
      tentacle_discovery, tentacle_identify) are the environment: they report
      whatever they like, within [t_ok] below.
    - The channel to the manager never closes (the manager runs as long as the
      node), so the [shutdown] flags of the reporters stay false.
    - [debug_assert!]s are off; the texts and boxed causes of the reported kinds
      are only logged and left out. *)
From Coq Require Import List Bool NArith Lia.
From stdpp Require Import base decidable list gmap.
From Verif Require Import Base Types PeerManager.
Import ListNotations.
Local Open Scope N_scope.

(** tentacle [Error], the cases keeper.rs:80-120 tells apart. *)
Inductive tent_err := ConnectSelf | RepeatedConn (n : sid) | IoTimedOut | IoInterrupted | OtherTent.

(** tentacle [SessionContext] *)
Record sctx := SCtx { sx_id : sid; sx_pk : option pubkey; sx_addr : maddr; sx_ty : session_type }.

(** tentacle [ServiceError] and [ServiceEvent] *)
Inductive svc_error :=
  | DialerError (e : tent_err) (a : maddr)
  | ListenError (e : tent_err) (a : maddr)
  | ProtocolSelectError (x : sctx) (proto_name : option bytes)
  | ProtocolError (n : sid)
  | SessionTimeout (x : sctx)
  | MuxerError (x : sctx)
  | ProtocolHandleError
  | SessionBlocked (x : sctx).
Inductive svc_event :=
  | SessionOpen (x : sctx)
  | SessionClose (x : sctx)
  | ListenStarted (a : maddr)
  | ListenClose (a : maddr).

(** tentacle_ping [Event]; the calls of tentacle_discovery's [AddressManager]
    and tentacle_identify's [Callback] that can report something. *)
Inductive ping_event := Ping (p : pid) | Pong (p : pid) | PingTimeout (p : pid) | PingUnexpected (p : pid).
Inductive disc_call := AddNewAddr (a : maddr) | AddNewAddrs (l : list maddr) | DiscMisbehave (n : sid).
Inductive ident_call :=
  | ReceivedIdentify | AddRemoteListenAddrs (p : pid) (l : list maddr) | AddObservedAddr (p : pid) (a : maddr)
  | IdentMisbehave (p : pid).

Inductive tevent :=
  | TError (e : svc_error) | TEvent (e : svc_event) | TPing (e : ping_event)
  | TDisc (e : disc_call) | TIdent (e : ident_call).

Section Keeper.
  Context (digest : bytes -> hash) (peer_id : pubkey -> pid).

  (** keeper.rs:80-120, [process_connect_error] *)
  Definition connect_error (ty : connection_type) (e : tent_err) (a : maddr) : pm_event :=
    match e with
    | ConnectSelf => AddListenAddr a
    | RepeatedConn n => RepeatedConnection ty n a
    | IoTimedOut | IoInterrupted => ReconnectLater a
    | OtherTent => UnconnectableAddress a
    end.

  (** The [peer_pubkey!] macro, keeper.rs:21-32: nothing is reported without a key. *)
  Definition with_pid (x : sctx) (f : pid -> pm_event) : list pm_event :=
    match sx_pk x with Some pk => [f (peer_id pk)] | None => [] end.

  (** keeper.rs:126-207, [handle_error] *)
  Definition handle_error (e : svc_error) : list pm_event :=
    match e with
    | DialerError e a => [connect_error Dialer e a]
    | ListenError e a => [connect_error Listen e a]
    | ProtocolSelectError x (Some _) => with_pid x RemovePeer
    | ProtocolSelectError x None => with_pid x RetryPeerLater
    | ProtocolError n => [RemovePeerBySession n]
    | SessionTimeout x | MuxerError x => with_pid x RetryPeerLater
    | ProtocolHandleError => []
    | SessionBlocked x => with_pid x (fun _ => RemovePeerBySession (sx_id x))
    end.

  (** keeper.rs:209-243, [handle_event] *)
  Definition handle_event (e : svc_event) : list pm_event :=
    match e with
    | SessionOpen x =>
        match sx_pk x with Some pk => [AttachPeerSession pk (sx_id x) (sx_addr x) (sx_ty x)] | None => [] end
    | SessionClose x => with_pid x (fun p => DetachPeerSession p (sx_id x) (sx_ty x))
    | ListenStarted a => [AddListenAddr a]
    | ListenClose a => [RemoveListenAddr a]
    end.

  (** ping.rs:94-136 *)
  Definition ping_report (e : ping_event) : list pm_event :=
    match e with
    | Ping p | Pong p => [PeerAlive p]
    | PingTimeout p | PingUnexpected p => [RetryPeerLater p]
    end.

  (** disc.rs:50-79 *)
  Definition disc_report (e : disc_call) : list pm_event :=
    match e with
    | AddNewAddr a => [DiscoverAddr a]
    | AddNewAddrs l => [DiscoverMultiAddrs l]
    | DiscMisbehave n => [RemovePeerBySession n]
    end.
  (** ident.rs:57-123: misbehaviour is only logged (the transport is told to
      disconnect), observed addresses are ignored *)
  Definition ident_report (e : ident_call) : list pm_event :=
    match e with
    | AddRemoteListenAddrs p l => [IdentifiedAddrs p l]
    | ReceivedIdentify | AddObservedAddr _ _ | IdentMisbehave _ => []
    end.

  Definition reports (e : tevent) : list pm_event :=
    match e with
    | TError e => handle_error e | TEvent e => handle_event e | TPing e => ping_report e
    | TDisc e => disc_report e | TIdent e => ident_report e
    end.

  (** ** A node's transport, its manager and the channel between them.
      [nt_open]: the sessions open in the transport; [nt_used]: the session
      numbers it has given out; [nt_queue]: events reported and not yet
      processed; [nt_out]: everything sent to the connection service. *)
  Record net := Net {
    nt_open : gmap sid sctx; nt_used : gset sid; nt_queue : list pm_event; nt_mgr : pm; nt_out : list conn_event }.

  (** What the transport may do: a new session has a fresh number, an
      authenticated key that is not ours and has no other open session (tentacle
      refuses it with [RepeatedConnection] or [ConnectSelf]); only an open
      session is closed.  Everything else may be reported at any time. *)
  Definition t_ok (cfg : config) (n : net) (e : tevent) : Prop :=
    match e with
    | TEvent (SessionOpen x) =>
        sx_id x ∉ nt_used n /\
        exists pk, sx_pk x = Some pk /\ pk <> our_pubkey cfg /\
          forall m y, nt_open n !! m = Some y -> sx_pk y <> Some pk
    | TEvent (SessionClose x) => nt_open n !! sx_id x = Some x
    | _ => True
    end.
  Definition t_open (e : tevent) (o : gmap sid sctx) : gmap sid sctx :=
    match e with
    | TEvent (SessionOpen x) => <[sx_id x := x]> o
    | TEvent (SessionClose x) => delete (sx_id x) o
    | _ => o
    end.
  Definition t_used (e : tevent) (u : gset sid) : gset sid :=
    match e with TEvent (SessionOpen x) => {[sx_id x]} ∪ u | _ => u end.

  (** One step: the transport reports something; a caller asks for a message
      to be routed (control.rs:70-98, through the same channel); the manager
      processes the oldest event (at some clock); it runs its routine. *)
  Inductive label :=
    | LReport (e : tevent)
    | LRoute (users : list user_address) (msg : bytes) (pri : priority)
    | LManage (c : clock)
    | LRoutine (c : clock) (picks : list pid) (unks : list maddr).

  Definition net_step (cfg : config) (n : net) (l : label) : option net :=
    match l with
    | LReport e => Some (Net (t_open e (nt_open n)) (t_used e (nt_used n)) (nt_queue n ++ reports e) (nt_mgr n) (nt_out n))
    | LRoute us msg pri =>
        Some (Net (nt_open n) (nt_used n) (nt_queue n ++ [RouteMultiUsersMessage us msg pri]) (nt_mgr n) (nt_out n))
    | LManage c =>
        match nt_queue n with
        | [] => None
        | e :: q =>
            let r := process_event digest peer_id cfg c (nt_mgr n) e in
            Some (Net (nt_open n) (nt_used n) q (fst r) (nt_out n ++ fst (snd r)))
        end
    | LRoutine c picks unks =>
        let r := routine (nt_mgr n) picks unks in
        Some (Net (nt_open n) (nt_used n) (nt_queue n) (fst r) (nt_out n ++ fst (snd r)))
    end.

  Definition label_ok (cfg : config) (n : net) (l : label) : Prop :=
    match l with
    | LReport e => t_ok cfg n e
    | LRoutine c picks unks => routine_ok cfg c (nt_mgr n) picks unks
    | _ => True
    end.

  (** [net_run cfg n0 ls n]: the steps [ls] lead from [n0] to [n]. *)
  Inductive net_run (cfg : config) (n0 : net) : list label -> net -> Prop :=
    | net_run_nil : net_run cfg n0 [] n0
    | net_run_snoc ls n l n' : net_run cfg n0 ls n -> label_ok cfg n l -> net_step cfg n l = Some n' ->
        net_run cfg n0 (ls ++ [l]) n'.

  (** service.rs:121-146: a node just started *)
  Definition net_start (cfg : config) (c : clock) (saved : list (pubkey * peer_state)) : net :=
    Net ∅ ∅ [] (start digest peer_id cfg c saved) [].

  (** ** What the node tells other peers *)
  (** mod.rs:461-467, [random_addrs]: [chosen] are at most [max] peers of the pool *)
  Definition random_addrs (s : pm) (chosen : list pid) : list maddr :=
    concat (map (fun p => peer_addrs p s) chosen).
End Keeper.
