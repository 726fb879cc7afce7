(** * Concrete reports meeting the hypotheses of PropBlame.v *)
From Coq Require Import List Bool NArith Lia.
From stdpp Require Import base decidable list gmap sets fin_sets.
From Verif Require Import Base Types Keccak PeerManager PmSpec PmFacts PmProps Keeper KeeperFacts KeeperProps KeeperMore
  PeerExamples PropKeeper KeeperExamples PropBlame.
Import ListNotations.
Local Open Scope N_scope.

(** The node [n2] of KeeperExamples.v: peer 3 is connected on session 8 and
    dialled at address 7 before, peer 2 is the bootstrap; nothing is waiting. *)
Definition heard (n : net) (t : N) (e : tevent) : net :=
  match net_step keccak idx xcfg n (LReport e) with
  | Some m => match net_step keccak idx xcfg m (LManage (at_ t)) with Some m' => m' | None => m end
  | None => n
  end.
Lemma heard_ok n t e : hears keccak idx xcfg (at_ t) n e (heard n t e).
Proof.
  unfold heard, hears. cbn [net_step].
  match goal with |- context [Net ?o ?u ?q ?m ?w] => exists (Net o u q m w) end. split; [reflexivity|].
  destruct (nt_queue _) as [|v q] eqn:E; [right; split; reflexivity|left; reflexivity].
Qed.

Example n2_meets :
  nt_queue n2 = [] /\ bool_decide (is_Some (pool (nt_mgr n2) !! our_id idx xcfg)) = true /\
  addr_pid (nt_mgr n2) !! adr 7 = Some (key x03) /\ bool_decide (adr 7 ∉ boot_addrs (nt_mgr n2)) = true /\
  session_peer (nt_mgr n2) !! 8 = Some (key x03) /\ bool_decide (is_Some (pool (nt_mgr n2) !! key x03)) = true /\
  bool_decide (adr 2 ∈ boot_addrs (nt_mgr n2)) = true /\ bool_decide (key x02 ∉ connected (nt_mgr n2)) = true /\
  addr_pid (nt_mgr n2) !! adr 2 = Some (key x02) /\
  forallb (fun x => negb (bool_decide (idx (fst x) = key x03))) (bootstraps xcfg) = true.
Proof. vm_compute. repeat split. Qed.
Example n2_meets_more :
  option_map (fun pe => retry_count (p_state pe)) (pool (nt_mgr n2) !! key x03) = Some 1 /\
  option_map (fun pe => 4 <=? duration_since 1020 (attempt_at (p_state pe))) (pool (nt_mgr n2) !! key x03) = Some true /\
  option_map (fun pe => retry_count (p_state pe)) (pool (nt_mgr n2) !! key x02) = Some 0 /\
  match_pid (adr 50) (nt_mgr n2) = None.
Proof. vm_compute. repeat split. Qed.

(** What happens in each case. *)
Definition addrs_of (n : net) (p : pid) : list maddr := match pool (nt_mgr n) !! p with Some pe => elements (p_addrs pe) | None => [] end.
Definition fails_of (n : net) (p : pid) : option N := option_map (fun pe => retry_count (p_state pe)) (pool (nt_mgr n) !! p).
Example own_found : addrs_of (heard n2 1020 (TError (DialerError ConnectSelf (adr 70)))) (our_id idx xcfg) = [adr 70].
Proof. vm_compute. reflexivity. Qed.
Example later_keeps : let n := heard n2 1020 (TError (DialerError IoTimedOut (adr 2))) in
  fails_of n (key x02) = Some 1 /\ addrs_of n (key x02) = [adr 2].
Proof. vm_compute. auto. Qed.
Example good_drops : let n := heard n2 1020 (TError (DialerError OtherTent (adr 7))) in
  fails_of n (key x03) = Some 1 /\ addrs_of n (key x03) = [] /\ addrs_of n2 (key x03) = [adr 7].
Proof. vm_compute. auto. Qed.
Example grave_drops : let n := heard n2 1020 (TError (SessionBlocked (sx 8 x03 Inbound))) in
  fails_of n (key x03) = None /\ fails_of n (key x02) = Some 0.
Proof. vm_compute. auto. Qed.
Example passing_counts : let n := heard n2 1020 (TPing (PingTimeout (key x03))) in
  fails_of n (key x03) = Some 2 /\ nt_out n = nt_out n2 ++ [Disconnect 8].
Proof. vm_compute. auto. Qed.
Example ping_clears : fails_of (heard n2 1020 (TPing (Pong (key x03)))) (key x03) = Some 0.
Proof. vm_compute. reflexivity. Qed.
Example repeated_adds : let n := heard n2 1020 (TError (DialerError (RepeatedConn 8) (adr 71))) in
  bool_decide (adr 71 ∈ addrs_of n (key x03)) = true.
Proof. vm_compute. reflexivity. Qed.
Example discovered_waits : let n := heard n2 1020 (TDisc (AddNewAddr (adr 50))) in
  bool_decide (is_Some (unknowns (nt_mgr n) !! adr 50)) = true.
Proof. vm_compute. reflexivity. Qed.
