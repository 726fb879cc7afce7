(** * The peer manager: model of core/network/src/peer_manager/mod.rs and
    peer.rs, and of the parts of event.rs, common.rs and persist.rs they use.

    Simplifications, for the whole file:
    - [PeerManager] is one task: events are processed one at a time, so its maps
      are plain finite maps (the locks of [Inner] only serve readers outside).
    - Clocks: each event or routine reads one pair of clocks; [SystemTime] in
      whole seconds since the Unix epoch, [Instant] in nanoseconds.
    - Iteration order of a [HashSet] of addresses is not specified by Rust; the
      model lists them with [elements], and no theorem depends on that order.
    - [PublicKey::peer_id] (a SHA-256 multihash, crate tentacle-secio) is a
      parameter [peer_id]; Keccak-256 is the parameter [digest].
    - A message to the connection service whose channel is closed is only
      logged; the model records what is sent.
    - [debug_assert!]s are off, as in a release build. *)
From Coq Require Import List Bool NArith Lia.
From stdpp Require Import base decidable list gmap.
From Verif Require Import Base Types.
Import ListNotations.
Local Open Scope N_scope.

(** crate multiaddr, [Protocol]: the cases the code tells apart. *)
Inductive proto :=
  | Ip4 (ip : bytes) | Ip6 (ip : bytes) | Tcp (port : N) | P2p (id : bytes)
  | OtherProto (code : N) (data : bytes).
Global Instance proto_eq_dec : EqDecision proto.
Proof. solve_decision. Defined.
Global Program Instance proto_countable : Countable proto :=
  inj_countable
    (fun p => match p with
              | Ip4 b => inl (inl b) | Ip6 b => inl (inr b) | Tcp n => inr (inl n)
              | P2p b => inr (inr (inl b)) | OtherProto n b => inr (inr (inr (n, b))) end)
    (fun s => Some match s with
              | inl (inl b) => Ip4 b | inl (inr b) => Ip6 b | inr (inl n) => Tcp n
              | inr (inr (inl b)) => P2p b | inr (inr (inr (n, b))) => OtherProto n b end) _.
Next Obligation. intros []; reflexivity. Qed.

(** crate multiaddr, [Multiaddr]: its components. *)
Notation maddr := (list proto).
(** tentacle [PeerId] and [PublicKey], as their bytes; [SessionId]. *)
Notation pid := bytes.
Notation pubkey := bytes.
Notation sid := N.

(** The clocks an event reads. *)
Record clock := Clock { sys : N (* seconds *); inst : N (* nanoseconds *) }.

(** common.rs:44-56 *)
Definition multi_addr_ip (a : maddr) : option proto :=
  match a with
  | Ip4 ip :: _ :: _ => Some (Ip4 ip)
  | Ip6 ip :: _ :: _ => Some (Ip6 ip)
  | _ => None
  end.

(** ** peer.rs *)
Definition BACKOFF_BASE : N := 5.            (* peer.rs:17 *)
Definition VALID_ATTEMPT_INTERVAL : N := 4.  (* peer.rs:18 *)

(** peer.rs:29-56 *)
Record peer_state := PeerState {
  connection_ip : option proto; addr_set : gset maddr;
  retry_count : N; next_retry : N;
  connect_at : N; disconnect_at : N; attempt_at : N; alive : N }.

(** peer.rs:65-70 *)
Record peer := Peer { p_id : pid; p_user : user_address; p_pubkey : pubkey; p_state : peer_state }.

(** peer.rs:72-83 *)
Definition ps_new (c : clock) : peer_state := PeerState None ∅ 0 (inst c) 0 0 0 0.
(** peer.rs:85-95 *)
Definition ps_from_addrs (c : clock) (addrs : list maddr) : peer_state :=
  PeerState None (list_to_set addrs) 0 (inst c) 0 0 0 0.

Definition with_state (p : peer) (st : peer_state) : peer :=
  Peer (p_id p) (p_user p) (p_pubkey p) st.
Definition p_addrs (p : peer) : gset maddr := addr_set (p_state p).
(** peer.rs:147-151, [owned_addrs] *)
Definition owned_addrs (p : peer) : list maddr := elements (p_addrs p).

(** peer.rs:157-159 *)
Definition set_connection_ip (ip : option proto) (p : peer) : peer :=
  let st := p_state p in
  with_state p (PeerState ip (addr_set st) (retry_count st) (next_retry st)
                          (connect_at st) (disconnect_at st) (attempt_at st) (alive st)).
(** peer.rs:161-163 *)
Definition add_addr (a : maddr) (p : peer) : peer :=
  let st := p_state p in
  with_state p (PeerState (connection_ip st) ({[a]} ∪ addr_set st) (retry_count st) (next_retry st)
                          (connect_at st) (disconnect_at st) (attempt_at st) (alive st)).
(** peer.rs:165-167 *)
Definition remove_addr (a : maddr) (p : peer) : peer :=
  let st := p_state p in
  with_state p (PeerState (connection_ip st) (addr_set st ∖ {[a]}) (retry_count st) (next_retry st)
                          (connect_at st) (disconnect_at st) (attempt_at st) (alive st)).
(** peer.rs:169-171 *)
Definition update_connect (c : clock) (p : peer) : peer :=
  let st := p_state p in
  with_state p (PeerState (connection_ip st) (addr_set st) (retry_count st) (next_retry st)
                          (sys c) (disconnect_at st) (attempt_at st) (alive st)).
(** peer.rs:173-175 *)
Definition update_disconnect (c : clock) (p : peer) : peer :=
  let st := p_state p in
  with_state p (PeerState (connection_ip st) (addr_set st) (retry_count st) (next_retry st)
                          (connect_at st) (sys c) (attempt_at st) (alive st)).
(** peer.rs:224-229, [duration_since]: the distance, in either direction *)
Definition duration_since (now early : N) : N := (now - early) + (early - now).
(** peer.rs:177-181 *)
Definition update_alive (c : clock) (p : peer) : peer :=
  let st := p_state p in
  with_state p (PeerState (connection_ip st) (addr_set st) (retry_count st) (next_retry st)
                          (connect_at st) (disconnect_at st) (attempt_at st)
                          (duration_since (sys c) (connect_at st))).
(** peer.rs:187-189 *)
Definition retry_ready (c : clock) (p : peer) : bool := next_retry (p_state p) <? inst c.
(** peer.rs:195-209; [usize::pow] and [u32 +] wrap in a release build *)
Definition increase_retry (c : clock) (p : peer) : peer :=
  let st := p_state p in
  if duration_since (sys c) (attempt_at st) <? VALID_ATTEMPT_INTERVAL then p
  else
    let n := (retry_count st + 1) mod 2 ^ 32 in
    let secs := (BACKOFF_BASE ^ n) mod 2 ^ 64 in
    with_state p (PeerState (connection_ip st) (addr_set st) n (inst c + secs * 1000000000)
                            (connect_at st) (disconnect_at st) (sys c) (alive st)).
(** peer.rs:211-213 *)
Definition reset_retry (p : peer) : peer :=
  let st := p_state p in
  with_state p (PeerState (connection_ip st) (addr_set st) 0 (next_retry st)
                          (connect_at st) (disconnect_at st) (attempt_at st) (alive st)).

(** ** event.rs *)
Inductive session_type := Inbound | Outbound.
Inductive connection_type := Listen | Dialer.
Inductive priority := High | Normal.

(** event.rs:14-31, [ConnectionEvent]; the protocol of a dial is always all of
    them; [TargetSession::Multi] is the only target the manager uses. *)
Inductive conn_event :=
  | Connect (addrs : list maddr)
  | Disconnect (s : sid)
  | SendMsg (tar : list sid) (msg : bytes) (pri : priority).

(** event.rs:104-171; the [kind] fields are only logged *)
Inductive pm_event :=
  | AttachPeerSession (pk : pubkey) (s : sid) (addr : maddr) (ty : session_type)
  | DetachPeerSession (p : pid) (s : sid) (ty : session_type)
  | PeerAlive (p : pid)
  | RemovePeer (p : pid)
  | RemovePeerBySession (s : sid)
  | RetryPeerLater (p : pid)
  | DiscoverAddr (a : maddr)
  | DiscoverMultiAddrs (l : list maddr)
  | IdentifiedAddrs (p : pid) (l : list maddr)
  | RepeatedConnection (ty : connection_type) (s : sid) (a : maddr)
  | UnconnectableAddress (a : maddr)
  | ReconnectLater (a : maddr)
  | AddListenAddr (a : maddr)
  | RemoveListenAddr (a : maddr)
  | RouteMultiUsersMessage (users : list user_address) (msg : bytes) (pri : priority).

(** What processing an event hands out: commands for the connection service,
    and the answer [miss_tx] of a routing request. *)
Notation output := (list conn_event * option (list user_address))%type.

(** ** mod.rs *)
Definition MAX_RETRY_COUNT : N := 6.       (* mod.rs:54 *)
Definition ALIVE_RETRY_INTERVAL : N := 3.  (* mod.rs:55 *)

(** mod.rs:57-62, [UnknownAddr] (its address is the key it is stored under) *)
Record unknown := Unknown { u_connecting : bool; u_retry : N }.
Definition u_new : unknown := Unknown false 0.                     (* 65-71 *)
Definition u_reach_max_retry (u : unknown) : bool :=               (* 87-89 *)
  u_retry u <=? MAX_RETRY_COUNT + 1.

(** mod.rs:434-453, [PeerManagerConfig].  Bootstraps are built with
    [Peer::from_pair] (config.rs:111-129). *)
Record config := Config {
  our_pubkey : pubkey; bootstraps : list (pubkey * maddr); max_connections : N }.

(** mod.rs:120-131 and 477-500, [Inner] and [PeerManager] *)
Record pm := PM {
  connecting : gset pid; connected : gset pid;
  addr_pid : gmap maddr pid; user_pid : gmap user_address pid; pool : gmap pid peer;
  peer_session : gmap pid sid; session_peer : gmap sid pid;
  boot_addrs : gset maddr; unknowns : gmap maddr unknown }.

Definition with_conn (cing ced : gset pid) (s : pm) : pm :=
  PM cing ced (addr_pid s) (user_pid s) (pool s) (peer_session s) (session_peer s)
     (boot_addrs s) (unknowns s).
Definition with_addr_pid (m : gmap maddr pid) (s : pm) : pm :=
  PM (connecting s) (connected s) m (user_pid s) (pool s) (peer_session s) (session_peer s)
     (boot_addrs s) (unknowns s).
Definition with_user_pid (m : gmap user_address pid) (s : pm) : pm :=
  PM (connecting s) (connected s) (addr_pid s) m (pool s) (peer_session s) (session_peer s)
     (boot_addrs s) (unknowns s).
Definition with_pool (m : gmap pid peer) (s : pm) : pm :=
  PM (connecting s) (connected s) (addr_pid s) (user_pid s) m (peer_session s) (session_peer s)
     (boot_addrs s) (unknowns s).
Definition with_sessions (ps : gmap pid sid) (sp : gmap sid pid) (s : pm) : pm :=
  PM (connecting s) (connected s) (addr_pid s) (user_pid s) (pool s) ps sp
     (boot_addrs s) (unknowns s).
Definition with_boot_addrs (b : gset maddr) (s : pm) : pm :=
  PM (connecting s) (connected s) (addr_pid s) (user_pid s) (pool s) (peer_session s)
     (session_peer s) b (unknowns s).
Definition with_unknowns (u : gmap maddr unknown) (s : pm) : pm :=
  PM (connecting s) (connected s) (addr_pid s) (user_pid s) (pool s) (peer_session s)
     (session_peer s) (boot_addrs s) u.

(** [pool.get_mut(pid)] followed by an update *)
Definition modify_peer (p : pid) (f : peer -> peer) (s : pm) : pm :=
  with_pool (alter f p (pool s)) s.

(** *** Inner *)

(** mod.rs:173-178 *)
Definition user_peer (u : user_address) (s : pm) : option peer :=
  match user_pid s !! u with Some p => pool s !! p | None => None end.

(** mod.rs:194-206; [insert] of every address of the peer *)
Definition insert_addrs (addrs : list maddr) (p : pid) (m : gmap maddr pid) : gmap maddr pid :=
  foldr (fun a m => <[a := p]> m) m addrs.
Definition i_add_peer (p : peer) (s : pm) : pm :=
  with_pool (<[p_id p := p]> (pool s))
    (with_user_pid (<[p_user p := p_id p]> (user_pid s))
      (with_addr_pid (insert_addrs (owned_addrs p) (p_id p) (addr_pid s)) s)).

(** mod.rs:208-222 *)
Definition add_peer_addr (p : pid) (a : maddr) (s : pm) : pm :=
  match pool s !! p with
  | None => s
  | Some _ => modify_peer p (add_addr a) (with_addr_pid (<[a := p]> (addr_pid s)) s)
  end.

(** mod.rs:224-230 *)
Definition remove_peer_addr (p : pid) (a : maddr) (s : pm) : pm :=
  modify_peer p (remove_addr a) (with_addr_pid (delete a (addr_pid s)) s).

(** mod.rs:232-276 *)
Definition match_pid (a : maddr) (s : pm) : option pid :=
  match addr_pid s !! a with
  | Some p => Some p
  | None =>
      match a with
      | c0 :: c1 :: rest =>
          match addr_pid s !! [c0; c1] with
          | Some p =>
              match rest with
              | [] => Some p
              | P2p q :: _ => if decide (p = q) then Some p else None
              | _ :: _ => None
              end
          | None => None
          end
      | _ => None
      end
  end.

(** mod.rs:278-284 *)
Definition try_remove_addr (a : maddr) (s : pm) : pm :=
  match addr_pid s !! a with Some p => remove_peer_addr p a s | None => s end.

(** mod.rs:286-298 *)
Definition delete_addrs (addrs : list maddr) (m : gmap maddr pid) : gmap maddr pid :=
  foldr (fun a m => delete a m) m addrs.
Definition remove_peer (p : pid) (s : pm) : pm :=
  let s := with_conn (connecting s ∖ {[p]}) (connected s ∖ {[p]}) s in
  match pool s !! p with
  | None => s
  | Some pe =>
      with_pool (delete p (pool s))
        (with_user_pid (delete (p_user pe) (user_pid s))
          (with_addr_pid (delete_addrs (owned_addrs pe) (addr_pid s)) s))
  end.

(** mod.rs:309-311 *)
Definition peer_connected (p : pid) (s : pm) : bool := bool_decide (p ∈ connected s).

(** mod.rs:313-320 *)
Definition connect_peer (p : pid) (s : pm) : pm :=
  if peer_connected p s then s else with_conn ({[p]} ∪ connecting s) (connected s) s.

(** mod.rs:322-332 *)
Definition set_connected (c : clock) (p : pid) (ip : option proto) (s : pm) : pm :=
  modify_peer p (fun pe => set_connection_ip ip (update_connect c pe))
    (with_conn (connecting s ∖ {[p]}) ({[p]} ∪ connected s) s).

(** mod.rs:334-344 *)
Definition disconnect_peer (c : clock) (p : pid) (s : pm) : pm :=
  modify_peer p (fun pe => set_connection_ip None (update_alive c (update_disconnect c pe)))
    (with_conn (connecting s ∖ {[p]}) (connected s ∖ {[p]}) s).

(** mod.rs:350-353; [usize] arithmetic wraps in a release build *)
Definition connection_count (s : pm) : N :=
  (N.of_nat (size (connected s)) + N.of_nat (size (connecting s)) + (2 ^ 64 - 1)) mod 2 ^ 64.

(** mod.rs:355-365: the peers [unconnected_peers] chooses from *)
Definition dial_candidate (c : clock) (s : pm) (pe : peer) : bool :=
  negb (bool_decide (p_id pe ∈ connected s)) && negb (bool_decide (p_id pe ∈ connecting s)) &&
  retry_ready c pe.
Definition candidates (c : clock) (s : pm) : list pid :=
  map p_id (filter (fun pe => dial_candidate c s pe = true) (map snd (map_to_list (pool s)))).

(** mod.rs:375-381, 383-387 *)
Definition increase_retry_count (c : clock) (p : pid) : pm -> pm := modify_peer p (increase_retry c).
Definition i_reset_retry (p : pid) : pm -> pm := modify_peer p reset_retry.

(** mod.rs:389-395 *)
Definition reach_max_retry (p : pid) (s : pm) : bool :=
  match pool s !! p with
  | Some pe => MAX_RETRY_COUNT <=? retry_count (p_state pe)
  | None => true
  end.

(** mod.rs:397-409 *)
Definition package_peers (s : pm) : list (pubkey * peer_state) :=
  map (fun '(_, pe) => (p_pubkey pe, p_state pe)) (map_to_list (pool s)).

(** persist.rs:42-65 with the serde attributes of peer.rs:37-51: what a peer
    state is once written to the file and read back.  The bincode bytes
    themselves are not modelled. *)
Definition reloaded (c : clock) (st : peer_state) : peer_state :=
  PeerState (connection_ip st) (addr_set st) 0 (inst c) (connect_at st) (disconnect_at st) 0 (alive st).

Section Manager.
  Context (digest : bytes -> hash) (peer_id : pubkey -> pid).

  (** peer.rs:216-221; [from_pubkey_bytes] never fails ([pubkey_user_ok] below) *)
  Definition pubkey_user (pk : pubkey) : user_address :=
    match user_from_pubkey digest pk with Ok u => u | _ => UA (repeat x10 21) eq_refl end.

  (** peer.rs:103-110 *)
  Definition peer_new (c : clock) (pk : pubkey) : peer :=
    Peer (peer_id pk) (pubkey_user pk) pk (ps_new c).
  (** peer.rs:112-119 *)
  Definition from_pair (c : clock) (x : pubkey * maddr) : peer :=
    Peer (peer_id (fst x)) (pubkey_user (fst x)) (fst x) (ps_from_addrs c [snd x]).

  Definition our_id (cfg : config) : pid := peer_id (our_pubkey cfg).

  (** mod.rs:300-307, 503-537: a new manager, with ourself registered *)
  Definition pm_new (cfg : config) (c : clock) : pm :=
    PM ∅ {[our_id cfg]} ∅
       {[pubkey_user (our_pubkey cfg) := our_id cfg]}
       {[our_id cfg := peer_new c (our_pubkey cfg)]} ∅ ∅ ∅ ∅.

  (** mod.rs:411-430 *)
  Definition insert_peer (c : clock) (x : pubkey * peer_state) (s : pm) : pm :=
    let '(pk, st) := x in
    let p := peer_id pk in
    with_pool (<[p := with_state match pool s !! p with Some pe => pe | None => peer_new c pk end st]> (pool s))
      (with_addr_pid (insert_addrs (elements (addr_set st)) p (addr_pid s))
        (with_user_pid (<[pubkey_user pk := p]> (user_pid s)) s)).
  Definition insert_peers (c : clock) (l : list (pubkey * peer_state)) (s : pm) : pm :=
    fold_left (fun s x => insert_peer c x s) l s.

  (** mod.rs:566-587; the [Connect] event is returned *)
  Definition boot_peers (cfg : config) (c : clock) : list peer := map (from_pair c) (bootstraps cfg).
  Definition bootstrap (cfg : config) (c : clock) (s : pm) : pm * list conn_event :=
    let peers := boot_peers cfg c in
    let s := fold_left (fun s pe => connect_peer (p_id pe) (i_add_peer pe s)) peers s in
    let addrs := concat (map owned_addrs peers) in
    (with_boot_addrs (list_to_set addrs ∪ boot_addrs s) s, [Connect addrs]).

  (** service.rs:132-146: the manager the network service starts with; [saved]
      is what the previous run wrote (empty when persistence is off) *)
  Definition start (cfg : config) (c : clock) (saved : list (pubkey * peer_state)) : pm :=
    let s := insert_peers c (map (fun '(pk, st) => (pk, reloaded c st)) saved) (pm_new cfg c) in
    match bootstraps cfg with [] => s | _ => fst (bootstrap cfg c s) end.

  (** mod.rs:604-622 *)
  Definition add_session_addr (n : sid) (a : maddr) (s : pm) : pm :=
    let s := with_unknowns (delete a (unknowns s)) s in
    match session_peer s !! n with Some p => add_peer_addr p a s | None => s end.

  (** mod.rs:692-700 *)
  Definition add_peer (c : clock) (pk : pubkey) (oa : option maddr) (s : pm) : pm :=
    match oa with
    | Some a => i_add_peer (from_pair c (pk, a)) (with_unknowns (delete a (unknowns s)) s)
    | None => i_add_peer (peer_new c pk) s
    end.

  (** mod.rs:624-657 *)
  Definition attach_peer_session (c : clock) (pk : pubkey) (n : sid) (a : maddr) (ty : session_type)
      (s : pm) : pm :=
    let p := peer_id pk in
    let listen := match ty with Inbound => None | Outbound => Some a end in
    let s1 := match pool s !! p with
              | None => add_peer c pk listen s
              | Some _ => match listen with Some a => add_peer_addr p a s | None => s end
              end in
    let s2 := set_connected c p (multi_addr_ip a) s1 in
    with_sessions (<[p := n]> (peer_session s2)) (<[n := p]> (session_peer s2)) s2.

  (** mod.rs:677-683 *)
  Definition close_peer_session (c : clock) (p : pid) (s : pm) : pm :=
    let s := disconnect_peer c p s in
    match peer_session s !! p with
    | Some n => with_sessions (delete p (peer_session s)) (delete n (session_peer s)) s
    | None => s
    end.

  (** mod.rs:685-690 *)
  Definition detach_session_id (c : clock) (n : sid) (s : pm) : pm :=
    match session_peer s !! n with
    | Some p =>
        let s := disconnect_peer c p (with_sessions (peer_session s) (delete n (session_peer s)) s) in
        with_sessions (delete p (peer_session s)) (session_peer s) s
    | None => s
    end.

  (** mod.rs:720-728 *)
  Definition is_bootstrap_peer (cfg : config) (p : pid) : bool :=
    existsb (fun x => bool_decide (peer_id (fst x) = p)) (bootstraps cfg).

  (** mod.rs:730-746 *)
  Definition cleanly_remove_peer (cfg : config) (c : clock) (p : pid) (s : pm) : pm :=
    let s := close_peer_session c p s in
    if is_bootstrap_peer cfg p then
      increase_retry_count c p (increase_retry_count c p (i_reset_retry p s))
    else remove_peer p s.

  (** mod.rs:750-756 *)
  Definition increase_peer_retry (cfg : config) (c : clock) (p : pid) (s : pm) : pm :=
    let s := increase_retry_count c p s in
    if reach_max_retry p s then cleanly_remove_peer cfg c p s else s.

  (** mod.rs:659-675 *)
  Definition detach_peer_session (cfg : config) (c : clock) (p : pid) (s : pm) : pm :=
    let s := close_peer_session c p s in
    match pool s !! p with
    | Some pe => if alive (p_state pe) <? ALIVE_RETRY_INTERVAL then increase_peer_retry cfg c p s else s
    | None => s
    end.

  (** mod.rs:702-718; [HashSet::insert] keeps an entry already there *)
  Definition identify_addr (a : maddr) (s : pm) : pm :=
    match match_pid a s with
    | Some p => if peer_connected p s then add_peer_addr p a s else s
    | None =>
        match unknowns s !! a with
        | Some _ => s
        | None => with_unknowns (<[a := u_new]> (unknowns s)) s
        end
    end.

  (** mod.rs:803-858 *)
  Definition route_multi_users_message (users : list user_address) (msg : bytes) (pri : priority)
      (s : pm) : output :=
    let conn := flat_map (fun u =>
      match user_peer u s with
      | Some pe => match peer_session s !! p_id pe with Some n => [n] | None => [] end
      | None => []
      end) users in
    let unconn := flat_map (fun u =>
      match user_peer u s with
      | Some pe => match peer_session s !! p_id pe with Some _ => [] | None => [pe] end
      | None => []
      end) users in
    let none := flat_map (fun u => match user_peer u s with Some _ => [] | None => [u] end) users in
    ([SendMsg conn msg pri; Connect (concat (map owned_addrs unconn))],
     Some (map p_user unconn ++ none)).

  (** mod.rs:860-998 *)
  Definition process_event (cfg : config) (c : clock) (s : pm) (e : pm_event) : pm * output :=
    match e with
    | AttachPeerSession pk n a ty => (attach_peer_session c pk n a ty s, ([], None))
    | DetachPeerSession p _ _ => (detach_peer_session cfg c p s, ([], None))
    | PeerAlive p => (i_reset_retry p s, ([], None))
    | RemovePeer p => (cleanly_remove_peer cfg c p s, ([], None))
    | RemovePeerBySession n =>
        match session_peer s !! n with
        | Some p => (cleanly_remove_peer cfg c p s, ([], None))
        | None => (detach_session_id c n s, ([], None))
        end
    | RetryPeerLater p =>
        let s := increase_peer_retry cfg c p s in
        (s, (match peer_session s !! p with Some n => [Disconnect n] | None => [] end, None))
    | DiscoverAddr a => (identify_addr a s, ([], None))
    | DiscoverMultiAddrs l => (fold_left (fun s a => identify_addr a s) l s, ([], None))
    | IdentifiedAddrs p l => (fold_left (fun s a => add_peer_addr p a s) l s, ([], None))
    | RepeatedConnection ty n a =>
        (match ty with Dialer => add_session_addr n a s | Listen => s end, ([], None))
    | UnconnectableAddress a =>
        let s := with_unknowns (delete a (unknowns s)) s in
        (if decide (a ∈ boot_addrs s) then s else try_remove_addr a s, ([], None))
    | ReconnectLater a =>
        let s := match unknowns s !! a with
                 | Some u =>
                     let u' := Unknown false (u_retry u + 1) in
                     if u_reach_max_retry u' then with_unknowns (delete a (unknowns s)) s
                     else with_unknowns (<[a := u']> (unknowns s)) s
                 | None => s
                 end in
        (match match_pid a s with
         | Some p => if peer_connected p s then s else increase_peer_retry cfg c p s
         | None => s
         end, ([], None))
    | AddListenAddr a => (add_peer_addr (our_id cfg) a s, ([], None))
    | RemoveListenAddr a => (remove_peer_addr (our_id cfg) a s, ([], None))
    | RouteMultiUsersMessage users msg pri => (s, route_multi_users_message users msg pri s)
    end.

  (** mod.rs:1043-1061 and 767-801, the routine at the end of [poll].  The
      random choice of peers ([choose_multiple]) and the [HashSet] order of the
      unknown addresses are oracles: [picks] and [unks]. *)
  Definition free_slots (cfg : config) (s : pm) : N :=
    if connection_count s <? max_connections cfg then max_connections cfg - connection_count s else 0.

  Definition fresh_unknowns (s : pm) : list maddr :=
    map fst (filter (fun x => u_connecting (snd x) = false) (map_to_list (unknowns s))).

  Definition valid_choice {A} (from : list A) (n : N) (chosen : list A) : Prop :=
    NoDup chosen /\ (forall x, In x chosen -> In x from) /\
    N.of_nat (length chosen) = N.min n (N.of_nat (length from)).

  Definition routine_ok (cfg : config) (c : clock) (s : pm) (picks : list pid) (unks : list maddr) : Prop :=
    valid_choice (candidates c s) (free_slots cfg s) picks /\
    valid_choice (fresh_unknowns s) (free_slots cfg s - N.of_nat (length picks)) unks.

  Definition peer_addrs (p : pid) (s : pm) : list maddr :=
    match pool s !! p with Some pe => owned_addrs pe | None => [] end.
  Definition mark_connecting (l : list maddr) (m : gmap maddr unknown) : gmap maddr unknown :=
    foldr (fun a m => alter (fun u => Unknown true (u_retry u)) a m) m l.

  Definition routine (s : pm) (picks : list pid) (unks : list maddr) : pm * output :=
    let addrs := concat (map (fun p => peer_addrs p s) picks) ++ unks in
    let s := fold_left (fun s p => connect_peer p s) picks s in
    let s := with_unknowns (mark_connecting unks (unknowns s)) s in
    (s, (match addrs with [] => [] | _ => [Connect addrs] end, None)).

  (** [poll] (mod.rs:1012-1064) processes the events that have arrived and then
      runs the routine.  A history is any sequence of these two. *)
  Inductive action :=
    | AEvent (e : pm_event)
    | ARoutine (picks : list pid) (unks : list maddr).

  Definition action_ok (cfg : config) (c : clock) (s : pm) (a : action) : Prop :=
    match a with AEvent _ => True | ARoutine picks unks => routine_ok cfg c s picks unks end.

  Definition act (cfg : config) (c : clock) (s : pm) (a : action) : pm * output :=
    match a with
    | AEvent e => process_event cfg c s e
    | ARoutine picks unks => routine s picks unks
    end.

  (** [reach cfg s0 h s]: the history [h] leads from [s0] to [s]. *)
  Inductive reach (cfg : config) (s0 : pm) : list (clock * action) -> pm -> Prop :=
    | reach_nil : reach cfg s0 [] s0
    | reach_snoc h s c a : reach cfg s0 h s -> action_ok cfg c s a ->
        reach cfg s0 (h ++ [(c, a)]) (fst (act cfg c s a)).
End Manager.
