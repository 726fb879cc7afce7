(** * C42: any number of threads insert while one packages; others may flush.
    [s] ranges over all schedules, [cap] over all queue capacities. The state
    [c_run (c_new cap) s] is a fresh pool after the steps of [s]. *)
From Verif Require Import Base BaseFacts Hex Types Rlp FixedCodec Mempool MempoolFacts MempoolMore MempoolConc MempoolConcFacts
  MempoolConcProps MempoolConcMore MempoolConcSeq Keccak MempoolExamples.
Local Open Scope nat_scope.

(** The wrapper of the i-th insertion call *)
Notation entry i t b := (MkW i t b).
(** [live c]: what the queues and the packaging thread hold *)

(** A call that returned success has its transaction in the queues exactly
    once, unless a package found it expired or a flush named it. The number of
    calls is bounded by the capacity of a queue. *)
Theorem C42_accepted_never_lost : forall cap s i t b,
  length (calls s) <= cap -> calls s !! i = Some (t, b) -> outcome (c_run (c_new cap) s) i = Some (Ok tt) ->
  entry i t b ∈ live (c_run (c_new cap) s) \/ expired_by s (entry i t b) \/ flushed_by s (entry i t b).
Proof.
  intros cap s i t b Hr Hi Ho. set (c := c_run (c_new cap) s) in *. set (w := entry i t b).
  assert (Hc : cinv c) by apply c_run_inv, cinv_new. destruct (run_call cap s i t b Hi) as [st E]. fold c in E.
  unfold outcome in Ho. rewrite E in Ho. destruct st as [| | |z|ok|ok|r]; try discriminate Ho. injection Ho as ->.
  pose proof (ci_cnt c Hc i) as X. unfold pushedn in X. rewrite E in X. cbn [pushed] in X.
  destruct (cnt_in' i (allw c)) as (v & Hv & Hid); [lia|]. destruct (ci_known c Hc v Hv) as [st' E']. rewrite Hid, E in E'.
  injection E' as <- _. destruct (room_run cap s Hr) as [Hov _]. fold c in Hov.
  unfold allw in Hv. rewrite Hov, !elem_of_app, elem_of_nil in Hv. unfold live. rewrite !elem_of_app.
  destruct Hv as [Hv|[Hv|[Hv|[Hv|[]]]]]; auto. right. destruct (why_gone s c (run_why cap s) _ Hv) as [Hm|Hm]; [|auto].
  destruct (why_removed s c (run_why cap s) _ Hm) as (v & st'' & E2 & F). cbn in E2. rewrite E in E2. injection E2 as <- _. auto.
Qed.
Print Assumptions C42_accepted_never_lost.

Theorem C42_queued_once : forall cap s, NoDup (map w_id (live (c_run (c_new cap) s))).
Proof.
  intros cap s. assert (Hc : cinv (c_run (c_new cap) s)) by apply c_run_inv, cinv_new.
  apply cnt_nodup. intros i. pose proof (ci_once _ i Hc) as X. rewrite allw_live in X. lia.
Qed.
Print Assumptions C42_queued_once.

(** Whenever no package is under way, everything accepted is in the queue the
    next package reads; the other queue is empty. *)
Theorem C42_idle_pool_is_ready : forall cap s,
  let c := c_run (c_new cap) s in
  length (calls s) <= cap -> c_pkg c = PIdle ->
  c_queue c (negb (c_zero c)) = [] /\
  forall i t b, calls s !! i = Some (t, b) -> outcome c i = Some (Ok tt) ->
    entry i t b ∈ c_queue c (c_zero c) \/ expired_by s (entry i t b) \/ flushed_by s (entry i t b).
Proof.
  intros cap s c Hr Hp. assert (Hc : cinv c) by apply c_run_inv, cinv_new. destruct (room_run cap s Hr) as [Hov _].
  pose proof (ci_pkg c Hc) as P. unfold pkg_inv in P. rewrite Hp in P. destruct P as [_ P]. specialize (P Hov).
  split; [exact P|]. intros i t b Hi Ho. destruct (C42_accepted_never_lost cap s i t b Hr Hi Ho) as [H|H]; [left|auto].
  apply (live_in c _ (c_zero c)) in H. rewrite P, Hp in H. cbn in H. rewrite elem_of_nil in H. tauto.
Qed.
Print Assumptions C42_idle_pool_is_ready.

(** Packaging with no other thread running is the function of Mempool.v (to
    which C32-C39 apply), and so is an insertion. *)
Theorem C42_package_alone : forall c limit cur tmo r tc',
  c_pkg c = PIdle -> c_count c = 0 -> tc_package (to_tc c) limit cur tmo = (Ok r, tc') ->
  exists n, let c' := c_run c (LPackage limit cur tmo :: repeat (LPkg 0) n) in
    c_pkg c' = PIdle /\ to_tc c' = tc' /\ c_results c' = c_results c ++ [r].
Proof. exact package_alone. Qed.
Print Assumptions C42_package_alone.
Theorem C42_insert_alone : forall c t b,
  let '(r, tc') := tc_insert (to_tc c) t b in
  let i := length (c_ins c) in
  let c' := c_run c (LSpawn t b :: repeat (LIns i) 7) in
  outcome c' i = Some r /\ c_pkg c' = c_pkg c /\ c_count c' = c_count c /\ c_map c' = tc_map tc' /\
  c_q0 c' = tc_q0 tc' /\ c_q1 c' = tc_q1 tc' /\ c_zero c' = tc_zero tc' /\ c_removed c' = tc_removed tc'.
Proof. exact insert_alone. Qed.
Print Assumptions C42_insert_alone.

(** Every package consists of hashes of distinct insertion calls whose
    transaction had been queued ... *)
Theorem C42_packages_distinct_calls : forall cap s o q,
  (o, q) ∈ c_results (c_run (c_new cap) s) ->
  exists is, NoDup is /\ length is = length (o ++ q) /\
    forall k h, (o ++ q) !! k = Some h -> exists i t b, is !! k = Some i /\ calls s !! i = Some (t, b) /\ st_tx_hash t = h.
Proof.
  intros cap s o q H. assert (Hc : cinv (c_run (c_new cap) s)) by apply c_run_inv, cinv_new.
  destruct (ci_res _ Hc o q H) as (k & E & N & K). exists (map w_id k). split; [exact N|]. split.
  - rewrite E, !map_length. reflexivity.
  - intros j h Hj. rewrite E, list_lookup_fmap in Hj. destruct (k !! j) as [w|] eqn:Ej; [|discriminate]. injection Hj as <-.
    destruct (K w (elem_of_list_lookup_2 _ _ _ Ej)) as (st & E1 & _). destruct (run_call' _ _ _ _ _ E1) as (t & b & E2 & E3).
    exists (w_id w), t, b. split; [rewrite list_lookup_fmap, Ej; reflexivity|]. split; [exact E2|]. rewrite E3. reflexivity.
Qed.
Print Assumptions C42_packages_distinct_calls.

(** ... and without concurrent flushes no hash occurs twice in it *)
Theorem C42_package_no_duplicates : forall cap s o q,
  existsb is_flush s = false -> (o, q) ∈ c_results (c_run (c_new cap) s) -> NoDup (o ++ q).
Proof. intros cap s o q Hf H. exact (d_res _ (d_run cap s Hf) o q H). Qed.
Print Assumptions C42_package_no_duplicates.

(** Without flushes everything queued is what the map answers for its hash, so
    two accepted calls never share a hash unless one of them had expired. *)
Theorem C42_map_agrees_with_queues : forall cap s w,
  existsb is_flush s = false -> w ∈ live (c_run (c_new cap) s) -> c_map (c_run (c_new cap) s) !! w_hash w = Some w.
Proof. intros cap s w Hf H. exact (d_live _ (d_run cap s Hf) w H). Qed.
Print Assumptions C42_map_agrees_with_queues.
Theorem C42_one_acceptance_per_hash : forall cap s i t b j t' b',
  length (calls s) <= cap -> existsb is_flush s = false ->
  calls s !! i = Some (t, b) -> outcome (c_run (c_new cap) s) i = Some (Ok tt) ->
  calls s !! j = Some (t', b') -> outcome (c_run (c_new cap) s) j = Some (Ok tt) ->
  i <> j -> st_tx_hash t = st_tx_hash t' -> expired_by s (entry i t b) \/ expired_by s (entry j t' b').
Proof.
  intros cap s i t b j t' b' Hr Hf Hi Oi Hj Oj Hne Hh.
  assert (Hno : forall w, flushed_by s w -> False).
  { intros w (hs & H & _). assert (existsb is_flush s = true); [|congruence]. apply existsb_exists. exists (LFlush hs).
    split; [apply elem_of_list_In; exact H|reflexivity]. }
  destruct (C42_accepted_never_lost cap s i t b Hr Hi Oi) as [Li|[|F]]; [|auto|destruct (Hno _ F)].
  destruct (C42_accepted_never_lost cap s j t' b' Hr Hj Oj) as [Lj|[|F]]; [|auto|destruct (Hno _ F)].
  pose proof (C42_map_agrees_with_queues cap s _ Hf Li) as Mi. pose proof (C42_map_agrees_with_queues cap s _ Hf Lj) as Mj.
  unfold w_hash in Mi, Mj. cbn in Mi, Mj. rewrite Hh, Mj in Mi. congruence.
Qed.
Print Assumptions C42_one_acceptance_per_hash.

(** A call refused as a duplicate has a rival with the same hash; with room no
    call is refused for lack of it. *)
Theorem C42_duplicate_refusal_justified : forall cap s i t b h,
  calls s !! i = Some (t, b) -> outcome (c_run (c_new cap) s) i = Some (Err (MDup h)) ->
  st_tx_hash t = h /\ exists j t' b', j <> i /\ calls s !! j = Some (t', b') /\ st_tx_hash t' = h.
Proof.
  intros cap s i t b h Hi Ho. destruct (run_call cap s i t b Hi) as [st E]. unfold outcome in Ho. rewrite E in Ho.
  destruct st as [| | |z|ok|ok|r]; try discriminate Ho. injection Ho as ->.
  destruct (du_dup _ (dup_run cap s) i _ h E) as (E1 & j & v & st & N & E2 & E3). split; [exact E1|].
  destruct (run_call' _ _ _ _ _ E2) as (t' & b' & E4 & ->). exists j, t', b'. auto.
Qed.
Print Assumptions C42_duplicate_refusal_justified.
Theorem C42_no_refusal_with_room : forall cap s i h,
  length (calls s) <= cap -> outcome (c_run (c_new cap) s) i <> Some (Err (MInsert h)).
Proof.
  intros cap s i h Hr Ho. unfold outcome in Ho. destruct (c_ins _ !! i) as [[w st]|] eqn:E; [|discriminate].
  destruct st as [| | |z|ok|ok|r]; try discriminate Ho. injection Ho as ->.
  pose proof (proj2 (room_run cap s Hr) _ _ _ E). discriminate.
Qed.
Print Assumptions C42_no_refusal_with_room.

(** The spinning wait for inserters cannot hang: at every point of every
    schedule, steps of inserters and of the packaging thread alone finish it. *)
Theorem C42_package_can_finish : forall cap s,
  exists s', forallb is_ins_or_pkg s' = true /\ c_pkg (c_run (c_new cap) (s ++ s')) = PIdle.
Proof.
  intros cap s. destruct (package_finishes (c_run (c_new cap) s)) as (s' & H1 & H2); [apply c_run_inv, cinv_new|].
  exists s'. rewrite run_app. auto.
Qed.
Print Assumptions C42_package_can_finish.

(** ** A flush racing with an insertion *)
Definition txA : signed_tx := ex_tx x01 10 100.
Definition txB : signed_tx := ex_tx x02 10 100.
Definition hA : hash := st_tx_hash txA.
Definition insA (t : signed_tx) (i : nat) : list label := LSpawn t false :: repeat (LIns i) 7.
Definition pack : list label := LPackage (wrap64 1000) (wrap64 1) (wrap64 100) :: repeat (LPkg 0) 40.

(** the flush looks the hash up, the insertion runs, the flush deletes the
    hash from the map but the queue entry is not marked; a second insertion of
    the same transaction is accepted *)
Definition race : list label := [LFlush [hA]; LFl 0 0; LFl 0 0] ++ insA txA 0 ++ [LFl 0 0] ++ insA txA 1 ++ pack.
Lemma race_chk : match c_results (c_run (c_new 8) race) with [(o, q)] => heqs (o ++ q) [hA; hA] | _ => false end = true.
Proof. vm_compute. reflexivity. Qed.
Theorem C42_flush_race_packages_twice_refuted : exists s o q,
  (o, q) ∈ c_results (c_run (c_new 8) s) /\ ~ NoDup (o ++ q).
Proof.
  pose proof race_chk as H. destruct (c_results (c_run (c_new 8) race)) as [|[o q] [|]] eqn:E; try discriminate H.
  exists race, o, q. rewrite E. split; [left|]. rewrite (heqs_eq _ _ H). intros N. apply NoDup_cons in N as [N _]. apply N. left.
Qed.
Print Assumptions C42_flush_race_packages_twice_refuted.

(** A refused insertion removes the map entry of a later accepted one: the
    later call starts after every flush has finished, returns success and is
    queued, but the map does not know it. *)
Definition victim1 : list label :=
  insA txB 0 ++ LSpawn txA false :: repeat (LIns 1) 5 ++
  LFlush [hA; st_tx_hash txB] :: repeat (LFl 0 0) 10 ++ pack.
Definition victim2 : list label := insA txA 2 ++ repeat (LIns 1) 2.
Lemma victim_chk :
  let c1 := c_run (c_new 1) victim1 in let c := c_run (c_new 1) (victim1 ++ victim2) in
  (match c_fl c1 with [FDelete []] => true | _ => false end &&
   match outcome c 2 with Some (Ok tt) => true | _ => false end &&
   existsb (fun w => w_id w =? 2) (c_queue c (c_zero c)) &&
   match c_map c !! hA with None => true | _ => false end)%bool = true.
Proof. vm_compute. reflexivity. Qed.
Theorem C42_refused_insert_erases_accepted_refuted : exists cap s1 s2 i t,
  let c := c_run (c_new cap) (s1 ++ s2) in
  c_fl (c_run (c_new cap) s1) = [FDelete []] /\ existsb is_flush s2 = false /\ length (calls s1) <= i /\
  calls (s1 ++ s2) !! i = Some (t, false) /\ outcome c i = Some (Ok tt) /\ c_map c !! st_tx_hash t = None.
Proof.
  exists 1, victim1, victim2, 2, txA. cbn zeta. pose proof victim_chk as H. cbn zeta in H.
  apply andb_true_iff in H as [H H4]. apply andb_true_iff in H as [H H3]. apply andb_true_iff in H as [H1 H2].
  split. { destruct (c_fl (c_run (c_new 1) victim1)) as [|[| |[|]] [|]]; try discriminate H1. reflexivity. }
  split; [reflexivity|]. split; [apply Nat.leb_le; reflexivity|]. split; [reflexivity|]. split.
  - destruct (outcome _ 2) as [[[]| |]|]; try discriminate H2. reflexivity.
  - destruct (c_map _ !! _); [discriminate H4|reflexivity].
Qed.
Print Assumptions C42_refused_insert_erases_accepted_refuted.

(** ** Non-vacuity: an insertion that overlaps the switch of the queues *)
Definition overlap : list label :=
  insA txA 0 ++ LSpawn txB false :: repeat (LIns 1) 3 ++          (* B has read the role *)
  LPackage (wrap64 1000) (wrap64 1) (wrap64 100) :: repeat (LPkg 0) 5 ++ (* switched *)
  repeat (LPkg 0) 3 ++ LIns 1 :: LPkg 0 :: repeat (LIns 1) 3 ++ repeat (LPkg 0) 20.
Lemma overlap_chk :
  let c := c_run (c_new 8) overlap in
  (match c_pkg c with PIdle => true | _ => false end &&
   match outcome c 0, outcome c 1 with Some (Ok tt), Some (Ok tt) => true | _, _ => false end &&
   match map w_id (c_queue c (c_zero c)) with [0; 1] => true | _ => false end &&
   match c_results c with [(o, q)] => heqs o [hA] | _ => false end && negb (c_zero c))%bool = true.
Proof. vm_compute. reflexivity. Qed.
Example C42_nonvacuous :
  length (calls overlap) <= 8 /\ existsb is_flush overlap = false /\
  calls overlap !! 1 = Some (txB, false) /\ outcome (c_run (c_new 8) overlap) 1 = Some (Ok tt) /\
  c_pkg (c_run (c_new 8) overlap) = PIdle /\ length (c_results (c_run (c_new 8) overlap)) = 1.
Proof.
  split; [apply Nat.leb_le; reflexivity|]. split; [reflexivity|]. split; [reflexivity|].
  pose proof overlap_chk as H. cbn zeta in H. revert H. generalize (c_run (c_new 8) overlap). intros c H.
  apply andb_true_iff in H as [H _]. apply andb_true_iff in H as [H H4].
  apply andb_true_iff in H as [H _]. apply andb_true_iff in H as [H1 H2]. split; [|split].
  - destruct (outcome c 0) as [[[]| |]|]; try discriminate H2. destruct (outcome c 1) as [[[]| |]|]; try discriminate H2. reflexivity.
  - destruct (c_pkg c); try discriminate H1. reflexivity.
  - destruct (c_results c) as [|[o q] [|]]; try discriminate H4. reflexivity.
Qed.
