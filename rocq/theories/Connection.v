(** * The connection service: model of core/network/src/connection/mod.rs and
    control.rs.

    The transport (crate tentacle) is an oracle: [tr n c] is what it answers to
    the [n]-th command [c] given to it.  The second half of [poll]
    (mod.rs:228-234), which lets the transport work, is therefore not here; the
    channel from the peer manager is the list [inbox]. *)
From Coq Require Import List Bool NArith Lia.
From stdpp Require Import base decidable list.
From Verif Require Import Base Types PeerManager.
Import ListNotations.

(** Commands of tentacle's [ServiceControl] the code uses. *)
Inductive tcmd :=
  | Dial (a : maddr)
  | Close (s : sid)
  | Broadcast (tar : list sid) (msg : bytes)
  | QuickBroadcast (tar : list sid) (msg : bytes).

(** Its errors: an I/O error of some kind, or another. *)
Inductive io_kind := BrokenPipe | WouldBlock | OtherKind.
Inductive terror := IoError (k : io_kind) | OtherError.
Notation tresult := (option terror).   (* [None] is [Ok(())] *)

(** mod.rs:107-113, 117-124 *)
Inductive state := Closed | Busy | Unexpected.
Definition classify (e : terror) : state :=
  match e with
  | IoError BrokenPipe => Closed
  | IoError WouldBlock => Busy
  | _ => Unexpected
  end.

(** mod.rs:39-49; [log]: the commands given to the transport so far and its
    answers (a ghost). *)
Record conn := Conn { pending : list conn_event; inbox : list conn_event; log : list (tcmd * tresult) }.

(** One command: [Some true] done, [Some false] to be kept for later, [None]
    the service is closed and the function returns (mod.rs:115-138, [try_do!]). *)
Definition try_do (tr : nat -> tcmd -> tresult) (c : tcmd) (l : list (tcmd * tresult))
    : option bool * list (tcmd * tresult) :=
  let r := tr (length l) c in
  (match r with
   | None => Some true
   | Some e => match classify e with Closed => None | Busy | Unexpected => Some false end
   end, l ++ [(c, r)]).

(** mod.rs:147-151, the loop over the addresses of a [Connect]; [None]: returned
    early. *)
Fixpoint dial_all (tr : nat -> tcmd -> tresult) (addrs : list maddr) (kept : list maddr)
    (l : list (tcmd * tresult)) : option (list maddr) * list (tcmd * tresult) :=
  match addrs with
  | [] => (Some kept, l)
  | a :: rest =>
      let '(r, l) := try_do tr (Dial a) l in
      match r with
      | None => (None, l)
      | Some true => dial_all tr rest kept l
      | Some false => dial_all tr rest (kept ++ [a]) l
      end
  end.

(** mod.rs:175-178 and control.rs:53-56 *)
Definition send_cmd (tar : list sid) (msg : bytes) (pri : priority) : tcmd :=
  match pri with High => QuickBroadcast tar msg | Normal => Broadcast tar msg end.

(** mod.rs:103-189 *)
Definition c_process_event (tr : nat -> tcmd -> tresult) (e : conn_event) (s : conn) : conn :=
  match e with
  | Connect addrs =>
      let '(r, l) := dial_all tr addrs [] (log s) in
      Conn match r with
           | Some (a :: rest) => pending s ++ [Connect (a :: rest)]
           | _ => pending s
           end (inbox s) l
  | Disconnect n =>
      let '(r, l) := try_do tr (Close n) (log s) in
      Conn match r with Some false => pending s ++ [Disconnect n] | _ => pending s end (inbox s) l
  | SendMsg tar msg pri =>
      let '(r, l) := try_do tr (send_cmd tar msg pri) (log s) in
      Conn match r with Some false => pending s ++ [SendMsg tar msg pri] | _ => pending s end (inbox s) l
  end.

(** mod.rs:214-226, the received events: while nothing is pending *)
Fixpoint receive (tr : nat -> tcmd -> tresult) (events : list conn_event) (s : conn) : conn :=
  match events, pending s with
  | e :: rest, [] => receive tr rest (c_process_event tr e (Conn [] rest (log s)))
  | _, _ => s
  end.

(** mod.rs:195-226 *)
Definition c_poll (tr : nat -> tcmd -> tresult) (s : conn) : conn :=
  let s := fold_left (fun s e => c_process_event tr e s) (pending s) (Conn [] (inbox s) (log s)) in
  receive tr (inbox s) s.

(** A schedule: events sent by the peer manager, and polls. *)
Inductive cop := Submit (e : conn_event) | Poll.
Definition c_step (tr : nat -> tcmd -> tresult) (s : conn) (o : cop) : conn :=
  match o with
  | Submit e => Conn (pending s) (inbox s ++ [e]) (log s)
  | Poll => c_poll tr s
  end.
Definition c_new : conn := Conn [] [] [].
Definition c_run (tr : nat -> tcmd -> tresult) (sched : list cop) : conn := fold_left (c_step tr) sched c_new.

(** ** control.rs *)
Inductive net_err := NShutdown | NBusy | NUnexpected | NPartialRoute (miss : list user_address).
(** control.rs:50-68 *)
Definition control_send (r : tresult) : res net_err unit :=
  match r with
  | None => Ok tt
  | Some (IoError BrokenPipe) => Err NShutdown
  | Some (IoError WouldBlock) => Err NBusy
  | Some _ => Err NUnexpected
  end.
(** control.rs:70-98; [answer] is what the peer manager sends back, [None] when
    it has exited *)
Definition users_send (answer : option (list user_address)) : res net_err unit :=
  match answer with
  | None => Err NUnexpected
  | Some [] => Ok tt
  | Some missed => Err (NPartialRoute missed)
  end.
