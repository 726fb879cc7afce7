(** * C98: concrete histories meeting the hypotheses. *)
From Verif Require Import Base BaseFacts Hex Types Rlp RlpFacts FixedCodec StateAdapter Executor ExecSpec Mempool Merkle Bincode ConsMsg PropConsMsg
  Proto Wire Storage StorageSpec StorageExamples Consensus ConsSpec ConsFacts ConsInv Keccak MixSetup ConsExamples ImmutFacts PropHeader.
Local Open Scope N_scope.

(** What the proposal of a machine says: its epoch id, cycles, number of
    hashes, of confirm roots; whether its roots are those of nothing. *)
Definition said (m : machine) (id : N) : list N :=
  match m with
  | Up n => match runx (CallPropose (wrap64 id) (wrap64 60)) n with
            | (Ok (RepPill q _), _, _) =>
                let hd := ep_header (pl_epoch q) in
                [u64v (eh_epoch_id hd); u64v (eh_cycles_used hd); N.of_nat (length (ep_ordered_tx_hashes (pl_epoch q)));
                 N.of_nat (length (eh_confirm_root hd));
                 if bl_eqb (ids (eh_confirm_root hd)) (ids [hash_from_empty mixd]) then 0 else 1;
                 if bl_eqb (ids (eh_receipt_root hd)) (ids [hash_from_empty mixd]) then 0 else 1;
                 match eh_proof hd with MkProof i _ _ _ _ => u64v i end]
            | _ => []
            end
  | Down _ => []
  end.
Definition cycles_receipt (m : machine) (h : hash) : N :=
  match get_receipt rocks_col (disk m).1 h with Ok r => u64v (fee_cycle (rc_cycles_used r)) | _ => 0 end.
Definition latest_is (m : machine) (e : epoch) : bool :=
  match get_latest_epoch rocks_col mixd (disk m).1 with Ok e' => bytes_eqb (wenc_epoch e) (wenc_epoch e') | _ => false end.
Definition busy_with (m : machine) (p : pill) : bool :=
  match m with Up n => match nd_busy n with Committing _ q _ _ => bytes_eqb (enc_pill p) (enc_pill q) | _ => false end | Down _ => false end.

(** The commit of epoch 1 (with the transaction arriving once more during it),
    then a proposal: the hypotheses of [C98_header_sums_up], with no call
    between. *)
Definition lb : list event := l2 ++ [EvCall (CallInsert true tx1 (Ok tt))].
Lemma lb_rest : (lb ++ [EvCall rest]) ++ map EvCall [] = l3.
Proof. reflexivity. Qed.
Lemma l3_good : along_b (Down (∅, ∅)) l3 && seen_b l3 = true.
Proof. vm_compute. reflexivity. Qed.
Example sums_up_hypotheses :
  epochs_ok mixd rootx showx verifyx comb_shapes cfx ((lb ++ [EvCall rest]) ++ map EvCall []) /\
  alwaysx one_more ((lb ++ [EvCall rest]) ++ map EvCall []) /\ alwaysx replies_match ((lb ++ [EvCall rest]) ++ map EvCall []) /\
  busy_with (historyx lb) p1 = true /\ NoDup (ep_ordered_tx_hashes (pl_epoch p1)) /\
  latest_is (historyx l3) (pl_epoch p1) = true /\ db_fits (disk (historyx l3)).1.
Proof.
  rewrite lb_rest. pose proof l3_good as H. apply andb_true_iff in H as [H1 H2]. apply along_b_ok in H1 as (A & _ & B & _).
  split; [exact (seen_b_ok _ H2)|]. split; [exact B|]. split; [exact A|]. split; [vm_compute; reflexivity|]. split.
  { rewrite (proj1 story_same_transaction_twice). apply NoDup_singleton. }
  split; [vm_compute; reflexivity|]. apply fits_b_ok. vm_compute. reflexivity.
Qed.
(** Epoch 1 used cycles, as the receipt says; the proposal for epoch 2 says 0,
    has roots that are not those of nothing and the proof of epoch 1. *)
Example sums_up_runs :
  cycles_receipt (historyx l3) (st_tx_hash tx1) = 210 /\ said (historyx l3) 2 = [2; 0; 1; 1; 1; 1; 1].
Proof. vm_compute. split; reflexivity. Qed.

(** The same commit, crash when all is stored, restart: the hypotheses of
    [C98_restart_sums_up_nothing_refuted]. *)
Definition lc0 : list event := l2 ++ [EvCrash rest 6].
Definition is_down (m : machine) : bool := match m with Down _ => true | Up _ => false end.
Example restart_hypotheses :
  epochs_ok mixd rootx showx verifyx comb_shapes cfx ((lc0 ++ [EvBoot canon_order canon_order]) ++ map EvCall []) /\
  alwaysx one_more ((lc0 ++ [EvBoot canon_order canon_order]) ++ map EvCall []) /\
  is_down (historyx lc0) = true /\ latest_is (historyx lc) (pl_epoch p1) = true.
Proof.
  pose proof story_hypotheses as (_ & A & _ & (_ & _ & B & _)).
  split; [exact A|]. split; [exact B|]. split; vm_compute; reflexivity.
Qed.
(** The node proposes epoch 2 too, with the roots of nothing and the proof of
    the genesis epoch. *)
Example restart_says : said (historyx lc) 2 = [2; 0; 0; 1; 0; 0; 0].
Proof. vm_compute. reflexivity. Qed.

(** The hypothesis of [C98_cycles_never_summed_up_refuted]. *)
Definition blank_b (e : epoch) : bool :=
  (u64v (eh_cycles_used (ep_header e)) =? 0) && bytes_eqb (sbytes (eh_logs_bloom (ep_header e))) (sbytes zero_bloom).
Example blank_hypotheses :
  Forall (fun e => eh_cycles_used (ep_header e) = wrap64 0 /\ eh_logs_bloom (ep_header e) = zero_bloom) (seenx l4).
Proof.
  assert (forallb blank_b (seenx l4) = true) as H by (vm_compute; reflexivity).
  rewrite forallb_forall in H. apply Forall_forall. intros e He. apply elem_of_list_In, H in He. apply andb_true_iff in He as [H1 H2].
  split; [apply u64_eq, N.eqb_eq, H1|apply sized_eq, bytes_eqb_eq, H2].
Qed.
