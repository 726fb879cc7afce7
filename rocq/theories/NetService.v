(** * The network service before and while it runs: core/network/src/service.rs,
    lines 94-116, 189-277, 279-346.

    Simplifications: the transport (tentacle) answers [listen] with success or
    failure, a parameter of the call; what it listens on is recorded.  The tasks
    spawned are those of PeerManager.v, Connection.v and NetMsg.v; here only
    which of them the service still holds.  Heart beat, log and the reports of
    system errors are left out. *)
From Coq Require Import List Bool NArith Lia.
From stdpp Require Import base decidable list gmap.
From Verif Require Import Base Types Endpoint NetMsg PeerManager.
Import ListNotations.
Local Open Scope N_scope.

(** service.rs:88-91, 113: [net_conn_srv]; [Taken] is [None] *)
Inductive conn_srv := NoListen | Ready | Taken.

Record service := Service {
  sv_conn : conn_srv;
  sv_mgr : bool;                     (* [peer_mgr.is_some()] *)
  sv_router : bool;                  (* [router.is_some()] *)
  sv_reactors : gmap bytes reactor;  (* the router's map, shared with its task *)
  sv_announced : option maddr;       (* [peer_mgr.listen()], shared with its task *)
  sv_transport : list maddr          (* what the transport listens on *)
}.

(** service.rs:119-187 *)
Definition service_new : service := Service NoListen true true ∅ None [].

(** service.rs:189-211, 215-236; the checks come first, and without the router
    nothing is done *)
Definition s_register (g : registration) (s : service) : nres unit * service :=
  match register (sv_reactors s) g with
  | Ok m => if sv_router s
            then (Ok tt, Service (sv_conn s) (sv_mgr s) (sv_router s) m (sv_announced s) (sv_transport s))
            else (Ok tt, s)
  | Err x => (Err x, s)
  | Panic => (Panic, s)
  end.

(** service.rs:245-271; [ok] is the transport's answer, [LErr] its error. *)
Inductive lres := LOk | LErr.
Definition s_listen (a : maddr) (ok : bool) (s : service) : lres * service :=
  match sv_conn s with
  | NoListen =>
      if ok
      then (LOk, Service Ready (sv_mgr s) (sv_router s) (sv_reactors s)
                   (if sv_mgr s then Some a else sv_announced s) (sv_transport s ++ [a]))
      else (LErr, s)
  | _ => (LOk, s)
  end.

(** service.rs:297-326, the preflight of [poll]; [None] is the panic of
    [expect] when the default address is refused *)
Definition s_poll (default : maddr) (ok : bool) (s : service) : option service :=
  let spawn (t : list maddr) :=
    Service Taken false false (sv_reactors s)
      (if sv_mgr s then match sv_announced s with None => Some default | x => x end else sv_announced s) t in
  match sv_conn s with
  | NoListen => if ok then Some (spawn (sv_transport s ++ [default])) else None
  | _ => Some (spawn (sv_transport s))
  end.

(** What is called on a service; the outcome of the transport is part of the
    call. *)
Inductive scall := CRegister (g : registration) | CListen (a : maddr) (ok : bool) | CPoll (ok : bool).
Definition s_step (default : maddr) (s : option service) (c : scall) : option service :=
  match s with
  | None => None
  | Some s => match c with
              | CRegister g => Some (snd (s_register g s))
              | CListen a ok => Some (snd (s_listen a ok s))
              | CPoll ok => s_poll default ok s
              end
  end.
(** The service after a history of calls; [None]: it has panicked. *)
Definition s_after (default : maddr) (l : list scall) : option service := fold_left (s_step default) l (Some service_new).
