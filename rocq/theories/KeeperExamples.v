(** * Concrete runs meeting the hypotheses of PropKeeper.v *)
From Coq Require Import List Bool NArith Lia.
From stdpp Require Import base decidable list gmap sets fin_sets.
From Verif Require Import Base Types Keccak PeerManager PmSpec PmFacts PmProps Keeper KeeperFacts KeeperProps KeeperMore
  PeerExamples PropKeeper.
Import ListNotations.
Local Open Scope N_scope.

Notation nrun := (net_run keccak idx xcfg).
Definition nstart : net := net_start keccak idx xcfg (at_ 1000) [].
Definition nexec (n : net) (ls : list label) : option net :=
  fold_left (fun o l => match o with Some n => net_step keccak idx xcfg n l | None => None end) ls (Some n).
Fixpoint noks (n : net) (ls : list label) : Prop :=
  match ls with
  | [] => True
  | l :: ls => label_ok xcfg n l /\ match net_step keccak idx xcfg n l with Some n' => noks n' ls | None => False end
  end.
Lemma nexec_run n ls n' : noks n ls -> nexec n ls = Some n' -> nrun n ls n'.
Proof.
  revert n. induction ls as [|l ls IH]; intros n Hok E.
  - injection E as <-. constructor.
  - destruct Hok as [H1 H2]. unfold nexec in E. cbn [fold_left] in E.
    destruct (net_step keccak idx xcfg n l) as [n1|] eqn:Es; [|destruct H2].
    refine (run_app _ _ _ _ [l] n1 ls n' _ (IH n1 H2 E)). exact (net_run_snoc _ _ _ _ [] n l n1 (net_run_nil _ _ _ _) H1 Es).
Qed.

(** labels the transport may always produce *)
Definition free_label (l : label) : bool :=
  match l with
  | LReport (TEvent (SessionOpen _)) | LReport (TEvent (SessionClose _)) | LRoutine _ _ _ => false
  | _ => true
  end.
Lemma nexec_none ls : fold_left (fun o l => match o with Some n => net_step keccak idx xcfg n l | None => None end) ls None = None.
Proof. induction ls; [reflexivity|assumption]. Qed.
Lemma nexec_free ls n : forallb free_label ls = true -> match nexec n ls with Some _ => true | None => false end = true ->
  exists n', nexec n ls = Some n' /\ nrun n ls n'.
Proof.
  intros Hf He. destruct (nexec n ls) as [n'|] eqn:E; [|discriminate]. exists n'. split; [reflexivity|].
  apply nexec_run; [|exact E]. clear He. revert n E. induction ls as [|l ls IH]; intros n E; [exact I|].
  cbn [forallb] in Hf. apply andb_true_iff in Hf as [Hl Hf]. unfold nexec in E. cbn [fold_left] in E. cbn [noks].
  destruct (net_step keccak idx xcfg n l) as [n1|] eqn:Es; [|rewrite nexec_none in E; discriminate].
  split; [|apply IH; [exact Hf|exact E]]. destruct l as [[|[]| | |]| | |]; try exact I; discriminate.
Qed.

Definition sx (m : sid) (b : byte) (ty : session_type) : sctx := SCtx m (Some (key b)) (adr m) ty.
(** Peer 3 connects (session 7), peer 4 connects (session 9), peer 3 leaves
    and comes back as session 8; the manager has processed the two openings,
    the close and the second opening of peer 3 are waiting. *)
Definition l1 : list label :=
  [ LReport (TEvent (SessionOpen (sx 7 x03 Outbound))); LReport (TEvent (SessionOpen (sx 9 x04 Inbound)));
    LManage (at_ 1001); LManage (at_ 1002);
    LReport (TEvent (SessionClose (sx 7 x03 Outbound))); LReport (TEvent (SessionOpen (sx 8 x03 Inbound)));
    LRoute [user_of x03; user_of x04] [] High ].
Ltac fresh_open := intros m y Hy; cbn in Hy;
  repeat (apply lookup_insert_Some in Hy as [[<- <-]|[_ Hy]]; [cbn; discriminate|]);
  repeat (apply lookup_delete_Some in Hy as [? Hy]);
  repeat (apply lookup_insert_Some in Hy as [[<- <-]|[_ Hy]]; [first [cbn; discriminate|cbn in *; congruence]|]);
  rewrite lookup_empty in Hy; discriminate.
Ltac not_used := apply (bool_decide_unpack _); vm_compute; exact I.
Example l1_ok : noks nstart l1.
Proof.
  unfold l1. cbn [noks net_step nt_queue app reports handle_event sx_pk sx t_ok label_ok].
  split. { split; [not_used|]. exists (key x03). split; [reflexivity|]. split; [discriminate|]. fresh_open. }
  split. { split; [not_used|]. exists (key x04). split; [reflexivity|]. split; [discriminate|]. fresh_open. }
  split; [exact I|]. split; [exact I|].
  split. { reflexivity. }
  split. { split; [not_used|]. exists (key x03). split; [reflexivity|]. split; [discriminate|]. fresh_open. }
  split; [exact I|exact I].
Qed.
Definition n1 : net := match nexec nstart l1 with Some n => n | None => nstart end.
Example l1_run : nrun nstart l1 n1.
Proof.
  apply nexec_run; [exact l1_ok|]. unfold n1.
  assert (match nexec nstart l1 with Some _ => true | None => false end = true) as E by (vm_compute; reflexivity).
  destruct (nexec nstart l1); [reflexivity|discriminate E].
Qed.
Example l1_ids ls : distinct_ids idx ls.
Proof. intros k1 k2 _ _ E. exact E. Qed.
Example l1_users : distinct_users keccak (run_keys xcfg [] l1).
Proof.
  assert (incl (run_keys xcfg [] l1) (all_keys xcfg [] xh)) as Hi.
  { intros k H. cbn in H |- *. tauto. }
  intros k1 k2 H1 H2. apply xh_users; apply Hi; assumption.
Qed.
(** C86: session 7 is recorded although it is closed; its close is the oldest
    event waiting. *)
Example l1_recorded : peer_session (nt_mgr n1) !! key x03 = Some 7 /\ peer_session (nt_mgr n1) !! key x04 = Some 9 /\
  match nt_open n1 !! 7 with Some _ => false | None => true end = true /\
  nt_queue n1 = [DetachPeerSession (key x03) 7 Outbound; AttachPeerSession (key x03) 8 (adr 8) Inbound;
                 RouteMultiUsersMessage [user_of x03; user_of x04] [] High].
Proof. vm_compute. auto. Qed.
(** After the two events, the routing request is next: it goes to 8 and 9. *)
Definition l1b : list label := [LManage (at_ 1003); LManage (at_ 1004)].
Definition n1b : net := match nexec n1 l1b with Some n => n | None => nstart end.
Example l1b_run : nrun nstart (l1 ++ l1b) n1b.
Proof.
  eapply run_app; [exact l1_run|]. unfold n1b. destruct (nexec_free l1b n1) as (n' & -> & H); [reflexivity|vm_compute; reflexivity|exact H].
Qed.
Example l1b_routes : nt_queue n1b = [RouteMultiUsersMessage [user_of x03; user_of x04] [] High] /\
  option_map nt_out (net_step keccak idx xcfg n1b (LManage (at_ 1005))) = Some [SendMsg [8; 9] [] High; Connect []].
Proof. vm_compute. auto. Qed.

(** C86, refuted: session 9 of peer 4 has a protocol error; the manager forgets
    it, the transport keeps it. *)
Definition l2 : list label := l1b ++ [LManage (at_ 1005); LReport (TError (ProtocolError 9)); LManage (at_ 1006)].
Definition n2 : net := match nexec n1 l2 with Some n => n | None => nstart end.
Example l2_run : nrun nstart (l1 ++ l2) n2.
Proof.
  eapply run_app; [exact l1_run|]. unfold n2. destruct (nexec_free l2 n1) as (n' & -> & H); [reflexivity|vm_compute; reflexivity|exact H].
Qed.
Example l2_forgotten : open_with n2 (key x04) 9 /\ peer_session (nt_mgr n2) !! idx (key x04) = None /\ nt_queue n2 = [].
Proof.
  split; [|vm_compute; auto]. exists (sx 9 x04 Inbound). split; [|reflexivity].
  assert (option_map sx_id (nt_open n2 !! 9) = Some 9 /\ option_map sx_pk (nt_open n2 !! 9) = Some (Some (key x04)) /\
    option_map sx_addr (nt_open n2 !! 9) = Some (adr 9) /\ option_map sx_ty (nt_open n2 !! 9) = Some Inbound) as (E1 & E2 & E3 & E4)
    by (vm_compute; auto).
  destruct (nt_open n2 !! 9) as [[a b d e]|]; [|discriminate E1]. cbn [option_map sx_id sx_pk sx_addr sx_ty] in E1, E2, E3, E4.
  injection E1 as ->. injection E2 as ->. injection E3 as ->. injection E4 as ->. reflexivity.
Qed.
(** The peer is asked for again: dialled, refused by the transport as a
    repeated connection, still not recorded. *)
Definition l3 : list label := [LReport (TError (DialerError (RepeatedConn 9) (adr 9))); LManage (at_ 1007)].
Example l3_still_missed : exists n3, nrun n2 l3 n3 /\ ~ closed_in l3 9 /\ peer_session (nt_mgr n3) !! idx (key x04) = None.
Proof.
  destruct (nexec_free l3 n2) as (n3 & E & H); [reflexivity|vm_compute; reflexivity|]. exists n3. split.
  - exact H.
  - split; [intros (x & Hin & _); cbn in Hin; repeat destruct Hin as [Hin|Hin]; discriminate || destruct Hin|].
    assert (match nexec n2 l3 with Some n => bool_decide (peer_session (nt_mgr n) !! idx (key x04) = None) | None => false end = true) as Eb
      by (vm_compute; reflexivity).
    rewrite E in Eb. apply bool_decide_eq_true in Eb. exact Eb.
Qed.

(** C87: [xcfg] allows two connections; five peers connect. *)
Example five_inbound : exists ls n, nrun nstart ls n /\ (5 <= size (connected (nt_mgr n)))%nat /\ max_connections xcfg = 2.
Proof.
  destruct (C87_inbound_unbounded_refuted keccak idx xcfg (at_ 1000) [] (at_ 1001) (map key [x03; x04; x05; x06; x07])) as (ls & n & Hr & _ & _ & _ & Hs).
  - apply (bool_decide_unpack _). vm_compute. exact I.
  - exists ls, n. split; [exact Hr|]. split; [exact Hs|reflexivity].
Qed.

(** C88: peer 4 announces the address of peer 3; the failed dial of peer 3 is
    then charged to nobody (peer 4 is connected). *)
Example stolen_address :
  let s := nt_mgr n2 in
  bool_decide (is_Some (pool s !! key x03)) = true /\
  bool_decide (adr 7 ∈ match pool s !! key x03 with Some pe => p_addrs pe | None => ∅ end) = true.
Proof. vm_compute. auto. Qed.
Example failure_of_bootstrap :
  addr_pid (nt_mgr nstart) !! adr 2 = Some (key x02) /\ bool_decide (key x02 ∉ connected (nt_mgr nstart)) = true /\
  option_map (fun pe => retry_count (p_state pe)) (pool (nt_mgr nstart) !! key x02) = Some 0 /\
  option_map (fun pe => retry_count (p_state pe))
    (pool (fst (process_event keccak idx xcfg (at_ 1010) (nt_mgr nstart) (ReconnectLater (adr 2)))) !! key x02) = Some 1.
Proof. vm_compute. auto. Qed.
