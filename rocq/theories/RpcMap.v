(** * Outstanding RPC calls: model of core/network/src/rpc_map.rs, and of the
    way core/network/src/outbound/rpc.rs and core/network/src/reactor/mod.rs
    use it from concurrent tasks. *)
From Coq Require Import List Bool NArith Lia.
From stdpp Require Import base decidable list gmap.
From Verif Require Import Base Endpoint.
Import ListNotations.
Local Open Scope N_scope.

(** tentacle [SessionId] *)
Notation session := N.
(** A Rust type, as [Any::type_id] sees it. *)
Notation rtype := nat.

(** rpc_map.rs:21, [BackSender]: the sending half of the one-shot channel of a
    call ([snd_call], the number of the call), and the type it carries. *)
Record sender := Sender { snd_ty : rtype; snd_call : nat }.

(** rpc_map.rs:23-27 *)
Record rpc_map := RpcMap { next_id : u64; entries : gmap (session * N) sender }.

(** rpc_map.rs:30-35 *)
Definition rm_new : rpc_map := RpcMap (wrap64 0) ∅.

(** rpc_map.rs:37-39, [fetch_add] (wraps around) *)
Definition rm_next (m : rpc_map) : u64 * rpc_map :=
  (next_id m, RpcMap (wrap64 (next_id m + 1)) (entries m)).

(** rpc_map.rs:41-50: overwrites (and so drops) an entry with the same key *)
Definition rm_insert (m : rpc_map) (sid : session) (rid : u64) (s : sender) : rpc_map :=
  RpcMap (next_id m) (<[(sid, u64v rid) := s]> (entries m)).

(** rpc_map.rs:59, under the read lock *)
Definition rm_contains (m : rpc_map) (sid : session) (rid : u64) : bool :=
  match entries m !! (sid, u64v rid) with Some _ => true | None => false end.

(** rpc_map.rs:63-66, under the write lock *)
Definition rm_remove (m : rpc_map) (sid : session) (rid : u64) : option sender * rpc_map :=
  (entries m !! (sid, u64v rid), RpcMap (next_id m) (delete (sid, u64v rid) (entries m))).

(** rpc_map.rs:52-74 as one step (nobody else touches the map in between).
    [MoreArcRpcSender] cannot happen: the [Arc] is never cloned. *)
Definition rm_take (m : rpc_map) (ty : rtype) (sid : session) (rid : u64) : nres sender * rpc_map :=
  if rm_contains m sid rid then
    match rm_remove m sid rid with
    | (Some s, m') => (if Nat.eqb (snd_ty s) ty then Ok s else Err UnexpectedRpcSender, m')
    | (None, m') => (Err UnknownRpc, m')
    end
  else (Err UnknownRpc, m).

Section Concurrent.
  Context {V : Type}.

  (** What has become of a call. *)
  Inductive cstatus :=
    | CHasId (rid : u64)                          (* id taken, not yet registered *)
    | CWait (rid : u64)                           (* registered, awaiting its answer *)
    | CGone (rid : u64)                           (* the caller stopped waiting *)
    | CDropped (rid : u64)                        (* [RpcDropped]: sender gone *)
    | CDone (rid : u64) (v : V) (t : nat).        (* returned [v], carried by response [t] *)

  Record call := Call { c_sid : session; c_ty : rtype; c_st : cstatus }.

  Definition c_rid (c : call) : u64 :=
    match c_st c with CHasId r | CWait r | CGone r | CDropped r | CDone r _ _ => r end.

  (** A response being handled by a reactor task. *)
  Record resp := Resp { r_sid : session; r_rid : u64; r_ty : rtype; r_val : V; r_live : bool }.

  Record rstate := RState { st_map : rpc_map; st_calls : list call; st_resps : list resp }.
  Definition rinit : rstate := RState rm_new [] [].

  (** Scheduler choices; any task can be at any point. *)
  Inductive revent :=
    | EvNext (sid : session) (ty : rtype)                   (* outbound/rpc.rs:58-60 *)
    | EvInsert (c : nat)                                    (* outbound/rpc.rs:61 *)
    | EvGiveUp (c : nat)                                    (* outbound/rpc.rs:63-67 failing, or the future dropped *)
    | EvResp (sid : session) (rid : u64) (ty : rtype) (v : V) (* reactor/mod.rs:84-86, rpc_map.rs:59 *)
    | EvTake (t : nat).                                     (* rpc_map.rs:63-73, reactor/mod.rs:88 *)

  Definition set_st (c : call) (st : cstatus) : call := Call (c_sid c) (c_ty c) st.

  (** The sender of call [c] is dropped: the call, if still waiting, fails. *)
  Definition drop_sender (calls : list call) (o : option sender) : list call :=
    match o with
    | Some s =>
        match calls !! snd_call s with
        | Some c => match c_st c with CWait r => <[snd_call s := set_st c (CDropped r)]> calls | _ => calls end
        | None => calls
        end
    | None => calls
    end.
  (** [resp_tx.send(content)]: fails silently when the caller is gone. *)
  Definition send_to (calls : list call) (s : sender) (v : V) (t : nat) : list call :=
    match calls !! snd_call s with
    | Some c => match c_st c with CWait r => <[snd_call s := set_st c (CDone r v t)]> calls | _ => calls end
    | None => calls
    end.
  Definition kill (r : resp) : resp := Resp (r_sid r) (r_rid r) (r_ty r) (r_val r) false.

  Definition rstep (s : rstate) (e : revent) : option rstate :=
    match e with
    | EvNext sid ty =>
        let (rid, m) := rm_next (st_map s) in
        Some (RState m (st_calls s ++ [Call sid ty (CHasId rid)]) (st_resps s))
    | EvInsert n =>
        match st_calls s !! n with
        | Some c =>
            match c_st c with
            | CHasId rid =>
                Some (RState (rm_insert (st_map s) (c_sid c) rid (Sender (c_ty c) n))
                        (<[n := set_st c (CWait rid)]>
                           (drop_sender (st_calls s) (entries (st_map s) !! (c_sid c, u64v rid))))
                        (st_resps s))
            | _ => None
            end
        | None => None
        end
    | EvGiveUp n =>
        match st_calls s !! n with
        | Some c =>
            match c_st c with
            | CWait rid => Some (RState (st_map s) (<[n := set_st c (CGone rid)]> (st_calls s)) (st_resps s))
            | _ => None
            end
        | None => None
        end
    | EvResp sid rid ty v =>
        Some (RState (st_map s) (st_calls s)
                (st_resps s ++ [Resp sid rid ty v (rm_contains (st_map s) sid rid)]))
    | EvTake t =>
        match st_resps s !! t with
        | Some r =>
            if r_live r then
              let (o, m) := rm_remove (st_map s) (r_sid r) (r_rid r) in
              let calls :=
                match o with
                | Some sd => if Nat.eqb (snd_ty sd) (r_ty r) then send_to (st_calls s) sd (r_val r) t
                             else drop_sender (st_calls s) (Some sd)
                | None => st_calls s
                end in
              Some (RState m calls (<[t := kill r]> (st_resps s)))
            else None
        | None => None
        end
    end.

  Fixpoint rrun (s : rstate) (l : list revent) : option rstate :=
    match l with
    | [] => Some s
    | e :: r => match rstep s e with Some s' => rrun s' r | None => None end
    end.
End Concurrent.
Arguments cstatus : clear implicits.
Arguments call : clear implicits.
Arguments resp : clear implicits.
Arguments rstate : clear implicits.
Arguments revent : clear implicits.
