(** * C27: the size of the pool while transactions are submitted concurrently.
    [n] is the configured size, [s] ranges over all schedules; see AdmitConc.v for
    [a_run] (the pool after the schedule), [outstanding] and [result]. *)
From Verif Require Import Base BaseFacts Hex Types Rlp FixedCodec Mempool MempoolConc AdmitConc AdmitFacts Keccak MempoolExamples.
Local Open Scope nat_scope.

(** With at most [k] submissions under way at any time, the pool never holds
    more than [n + k - 1] transactions (none taken from other nodes' proposals). *)
Theorem C27_bound : forall (n k : nat) (s : list alabel),
  Forall (fun l => not_spawn l = true) s ->
  (forall s1 s2, s = s1 ++ s2 -> outstanding (a_run n s1) <= k) ->
  pooled (a_run n s) <= n + pred k.
Proof. exact run_bound. Qed.
Print Assumptions C27_bound.

(** One at a time: the configured size. *)
Theorem C27_one_at_a_time : forall (n : nat) (s : list alabel),
  Forall (fun l => not_spawn l = true) s ->
  (forall s1 s2, s = s1 ++ s2 -> outstanding (a_run n s1) <= 1) ->
  pooled (a_run n s) <= n.
Proof. intros n s H1 H2. pose proof (run_bound n 1 s H1 H2). lia. Qed.
Print Assumptions C27_one_at_a_time.

(** At once: the configured size bounds nothing.  Any transactions with different
    hashes, up to the [4 * n] places of the queue, submitted together are all
    accepted and pooled. *)
Theorem C27_burst_exceeds_size_refuted : forall (n : nat) (ts : list signed_tx),
  0 < n -> n < length ts -> length ts <= 4 * n -> NoDup (map st_tx_hash ts) ->
  exists s, Forall (fun l => not_spawn l = true) s /\ map fst (a_calls (a_run n s)) = ts /\
    (forall j, j < length ts -> result (a_run n s) j = Some (Ok tt)) /\
    n < pooled (a_run n s) /\ pooled (a_run n s) = length ts.
Proof.
  intros n ts H0 Hn Hc Hd. exists (burst ts). rewrite (burst_runs n ts H0 Hc Hd).
  assert (pooled (MkAdm (full_pool (4 * n) ts) (placed ts)) = length ts) as Hp.
  { unfold pooled. cbn [a_pool c_map full_pool]. apply map_all_size, Hd. }
  split; [|split; [|split; [|split]]].
  - unfold burst. rewrite !Forall_app. repeat split; apply Forall_forall.
    + intros x Hx. apply elem_of_list_fmap in Hx as (y & -> & _). reflexivity.
    + intros x Hx. rewrite elem_of_list_In in Hx. apply in_concat in Hx as (l & Hl & Hx).
      apply in_map_iff in Hl as (j & <- & _). apply repeat_spec in Hx as ->. reflexivity.
    + intros x Hx. rewrite elem_of_list_In in Hx. apply in_concat in Hx as (l & Hl & Hx).
      apply in_map_iff in Hl as (j & <- & _). cbn in Hx.
      repeat (destruct Hx as [<- |Hx]; [reflexivity|]). destruct Hx.
  - apply placed_fst.
  - intros j Hj. destruct (lookup_lt_is_Some_2 ts j Hj) as [t Ht]. unfold result. cbn [a_calls a_pool].
    unfold placed. rewrite list_lookup_imap, Ht. cbn. change (map ?f ?l) with (f <$> l). rewrite list_lookup_fmap.
    unfold wrap_all. rewrite list_lookup_imap, Ht. reflexivity.
  - rewrite Hp. exact Hn.
  - exact Hp.
Qed.
Print Assumptions C27_burst_exceeds_size_refuted.

(** The hypotheses are met: two transactions on a pool of one. *)
Definition two : list signed_tx := [ex_tx x01 10 100; ex_tx x02 10 100].
Example two_differ : NoDup (map st_tx_hash two).
Proof.
  cbn [two map]. constructor; [|constructor; [inversion 1|constructor]].
  intros H. apply elem_of_list_singleton in H. apply (f_equal sbytes) in H.
  assert (bytes_eqb (sbytes (st_tx_hash (ex_tx x01 10 100))) (sbytes (st_tx_hash (ex_tx x02 10 100))) = false) as B by (vm_compute; reflexivity).
  rewrite H in B. assert (bytes_eqb (sbytes (st_tx_hash (ex_tx x02 10 100))) (sbytes (st_tx_hash (ex_tx x02 10 100))) = true) as C by (apply bytes_eqb_eq; reflexivity).
  congruence.
Qed.
Example two_in_a_pool_of_one : pooled (a_run 1 (burst two)) = 2.
Proof. rewrite (burst_runs 1 two) by (try exact two_differ; cbn; lia). apply (map_all_size two two_differ). Qed.

(** ** The size is counted bucket by bucket, while the pool changes *)
Definition tA : signed_tx := ex_tx x04 10 100.  (* in bucket 0 *)
Definition tB : signed_tx := ex_tx x01 10 100.  (* in bucket 8 *)
Definition tC : signed_tx := ex_tx x02 10 100.
Definition upto (j : nat) : list alabel := repeat (ALimit j) 17 ++ [AExist j; AVerify j None].
Definition pool_it (i : nat) : list alabel := map APool (repeat (LIns i) 6).
Definition flush_it (t : signed_tx) : list alabel := APool (LFlush [st_tx_hash t]) :: repeat (APool (LFl 0 0)) 4.

(** Every state on the way of [s] from [a] *)
Definition on_way (n : nat) (P : nat -> bool) (a : adm) (s : list alabel) : bool :=
  forallb (fun k => P (pooled (fold_left (a_step n) (take k s) a))) (seq 0 (S (length s))).
Lemma on_way_all n P a s : on_way n P a s = true ->
  forall s1 s2, s = s1 ++ s2 -> P (pooled (fold_left (a_step n) s1 a)) = true.
Proof.
  unfold on_way. intros H s1 s2 E. rewrite forallb_forall in H. specialize (H (length s1)).
  assert (take (length s1) s = s1) as T by (rewrite E; apply take_app). rewrite T in H. apply H.
  apply in_seq. rewrite E, app_length. lia.
Qed.

Lemma run_app n s s1 : a_run n (s ++ s1) = fold_left (a_step n) s1 (a_run n s).
Proof. apply fold_left_app. Qed.

(** A submission is refused for a full pool, which was never full. *)
Definition refused_run : list alabel :=
  ACall tA :: upto 0 ++ pool_it 0 ++ ACall tB :: upto 1 ++ ACall tC :: ALimit 2 :: flush_it tA ++ pool_it 1 ++ repeat (ALimit 2) 16.
Theorem C27_refused_with_room_refuted : exists (n : nat) (s : list alabel) (j : nat),
  Forall (fun l => not_spawn l = true) s /\
  (forall s1 s2, s = s1 ++ s2 -> pooled (a_run n s1) < n) /\
  result (a_run n s) j = Some (Err (MReachLimit n)).
Proof.
  exists 2, refused_run, 2. split; [|split].
  - apply Forall_forall. intros l Hl. apply elem_of_list_In in Hl.
    assert (forallb not_spawn refused_run = true) as B by (vm_compute; reflexivity).
    rewrite forallb_forall in B. exact (B l Hl).
  - intros s1 s2 E. apply Nat.ltb_lt. assert (on_way 2 (fun p => p <? 2) (a_new 2) refused_run = true) as B by (vm_compute; reflexivity).
    exact (on_way_all 2 (fun p => p <? 2) _ _ B s1 s2 E).
  - assert (match result (a_run 2 refused_run) 2 with Some (Err (MReachLimit m)) => m =? 2 | _ => false end = true) as B by (vm_compute; reflexivity).
    destruct (result (a_run 2 refused_run) 2) as [[u|e|]|]; try discriminate B. destruct e; try discriminate B.
    apply Nat.eqb_eq in B. rewrite B. reflexivity.
Qed.
Print Assumptions C27_refused_with_room_refuted.

(** A submission is accepted by a pool which has been full since it was made. *)
Definition full_run : list alabel := ACall tA :: upto 0 ++ ACall tB :: upto 1 ++ pool_it 1.
Definition accepted_run : list alabel :=
  ACall tC :: ALimit 2 :: pool_it 0 ++ flush_it tB ++ repeat (ALimit 2) 16 ++ [AExist 2; AVerify 2 None] ++ pool_it 2.
Theorem C27_accepted_though_full_refuted : exists (n : nat) (s : list alabel) (t : signed_tx) (s' : list alabel),
  Forall (fun l => not_spawn l = true) (s ++ ACall t :: s') /\
  (forall s1 s2, ACall t :: s' = s1 ++ s2 -> n <= pooled (a_run n (s ++ s1))) /\
  result (a_run n (s ++ ACall t :: s')) (length (a_calls (a_run n s))) = Some (Ok tt).
Proof.
  exists 1, full_run, tC, (tail accepted_run). change (ACall tC :: tail accepted_run) with accepted_run. split; [|split].
  - apply Forall_forall. intros l Hl. apply elem_of_list_In in Hl.
    assert (forallb not_spawn (full_run ++ accepted_run) = true) as B by (vm_compute; reflexivity).
    rewrite forallb_forall in B. exact (B l Hl).
  - intros s1 s2 E. apply Nat.leb_le. rewrite run_app.
    assert (on_way 1 (fun p => 1 <=? p) (a_run 1 full_run) accepted_run = true) as B by (vm_compute; reflexivity).
    exact (on_way_all 1 (fun p => 1 <=? p) _ _ B s1 s2 E).
  - assert (length (a_calls (a_run 1 full_run)) = 2) as -> by (apply Nat.eqb_eq; vm_compute; reflexivity).
    assert (match result (a_run 1 (full_run ++ accepted_run)) 2 with Some (Ok _) => true | _ => false end = true) as B by (vm_compute; reflexivity).
    destruct (result (a_run 1 (full_run ++ accepted_run)) 2) as [[u|e|]|]; try discriminate B. destruct u. reflexivity.
Qed.
Print Assumptions C27_accepted_though_full_refuted.
