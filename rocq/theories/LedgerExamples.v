(** * Histories meeting the hypotheses of C90, with the digest [mixd]: two
    commits; a crash when all is stored, a restart and a commit; and a node that
    swallowed a rogue epoch. *)
From Verif Require Import Base BaseFacts Hex Types Rlp RlpFacts FixedCodec StateAdapter Executor ExecSpec Mempool Merkle Bincode ConsMsg PropConsMsg
  Proto Wire Storage StorageSpec StorageExamples Consensus ConsSpec ConsFacts ConsInv Api LedgerSpec Keccak MixSetup ConsExamples.
From Coq Require Strings.String.
Import String.StringSyntax.
Delimit Scope string_scope with string.
Local Open Scope N_scope.

Notation execsx := (execs_seen mixd rootx showx verifyx comb_shapes cfx (Down (∅, ∅))).
Lemma along_forall (C : machine -> event -> Prop) l : Forall (fun e => forall m, C m e) l -> forall m,
  along mixd rootx showx verifyx comb_shapes cfx C m l.
Proof. induction 1 as [|e l He _ IH]; intros m; cbn [along]; auto. Qed.

Definition roots_b (m : machine) (e : event) : bool :=
  match m, event_call e with
  | Up n, Some (CallCommit _ c) => heqb (eh_state_root (ep_header (pl_epoch (cm_pill c)))) (cs_state_root (nd_status n))
  | _, _ => true
  end.
Fixpoint roots_along_b (m : machine) (l : list event) : bool :=
  match l with [] => true | e :: r => roots_b m e && roots_along_b (happens mixd rootx showx verifyx comb_shapes cfx m e) r end.
Lemma roots_along_b_ok l : forall m, roots_along_b m l = true -> along mixd rootx showx verifyx comb_shapes cfx roots_agree m l.
Proof.
  induction l as [|e l IH]; intros m; cbn [roots_along_b along]; [auto|]. intros H. apply andb_true_iff in H as [H1 H2].
  split; [|apply IH, H2]. unfold roots_agree, roots_b in *. destruct m as [d|n]; [exact I|].
  destruct (event_call e) as [[]|]; try exact I. apply heqb_eq, H1.
Qed.
Definition states_b (l : list event) : bool :=
  let xs := execsx l in forallb fits_check xs && clash_check (∅ :: concat (map tries_of xs)).
Lemma states_b_ok l : Forall (fun e => forall m, orders_ok m e) l -> states_b l = true ->
  states_ok mixd rootx showx verifyx comb_shapes cfx l.
Proof.
  intros Ho H. unfold states_b in H. cbn zeta in H. apply andb_true_iff in H as [H1 H2]. split.
  - apply along_forall, Ho.
  - rewrite forallb_forall in H1. apply Forall_forall. intros x Hx. apply fits_check_ok, H1, elem_of_list_In, Hx.
  - apply clash_check_ok, H2.
Qed.

(** Crash when all is stored, restart, propose and commit again. *)
Definition p2' : pill := Eval vm_compute in propose_at lc 2 60.
Definition lcc : list event := lc ++ [EvCall (CallPropose (wrap64 2) (wrap64 60)); EvCall (CallCommit (wrap64 2) (commit_of 2 p2')); EvCall rest].
Definition lr : list event := ls ++ [pull rogue []].

Lemma ledger_story_good : states_b l4 && states_b lcc && states_b lr && seen_b lcc &&
  roots_along_b (Down (∅, ∅)) l4 && roots_along_b (Down (∅, ∅)) lcc = true.
Proof. vm_compute. reflexivity. Qed.

Lemma l4_orders : Forall (fun e => forall m, orders_ok m e) l4.
Proof. repeat (apply Forall_cons; split; [intros m; first [exact I|split; apply (canons_ok O)|exact canons_ok]|]); apply Forall_nil; exact I. Qed.
Lemma lcc_orders : Forall (fun e => forall m, orders_ok m e) lcc.
Proof. repeat (apply Forall_cons; split; [intros m; first [exact I|split; apply (canons_ok O)|exact canons_ok]|]); apply Forall_nil; exact I. Qed.
Lemma lr_orders : Forall (fun e => forall m, orders_ok m e) lr.
Proof. repeat (apply Forall_cons; split; [intros m; first [exact I|split; apply (canons_ok O)|exact canons_ok]|]); apply Forall_nil; exact I. Qed.

Example ledger_story_hypotheses :
  rootx ∅ = hash_from_empty mixd /\ parsed_genesis (cf_genesis cfx) [x60; x61] gen0_allocs /\
  states_ok mixd rootx showx verifyx comb_shapes cfx lr /\
  Forall (fun l => states_ok mixd rootx showx verifyx comb_shapes cfx l /\ epochs_ok mixd rootx showx verifyx comb_shapes cfx l /\
    alwaysx never_syncs l /\ alwaysx roots_agree l) [l4; lcc].
Proof.
  pose proof ledger_story_good as H. repeat match goal with H : _ && _ = true |- _ => apply andb_true_iff in H as [H ?] end.
  split; [apply sized_eq; vm_compute; reflexivity|]. split; [exact gen0_parsed|].
  split; [apply states_b_ok; [apply lr_orders|assumption]|].
  apply Forall_cons; split; [|apply Forall_cons; split; [|apply Forall_nil; exact I]].
  - split; [apply states_b_ok; [apply l4_orders|assumption]|]. split; [exact (proj1 story_hypotheses)|].
    split; [|apply roots_along_b_ok; assumption]. apply along_forall. repeat (apply Forall_cons; split; [intros m; exact I|]). apply Forall_nil; exact I.
  - split; [apply states_b_ok; [apply lcc_orders|assumption]|]. split; [apply seen_b_ok; assumption|].
    split; [|apply roots_along_b_ok; assumption]. apply along_forall. repeat (apply Forall_cons; split; [intros m; exact I|]). apply Forall_nil; exact I.
Qed.

(** The whole ledger holds 1003 system tokens: alice's 1000 and bob's 3 at
    first.  The node that took the rogue epoch goes on from the empty ledger. *)
Definition supply_at (n : node) : option N :=
  match Executor.from_root mixd chainx (cs_state_root (nd_status n)) (nd_disk n).2 (wrap64 0) (wrap64 1) (AUser carol) with
  | Ok x => Some (total stok (committed x))
  | _ => None
  end.
Definition supply_m (m : machine) : option N := match m with Up n => supply_at n | Down _ => None end.
Example ledger_story_runs :
  allocated_total stok gen0_allocs = 1003 /\
  supply_m (historyx l4) = Some 1003 /\ supply_m (historyx lcc) = Some 1003 /\ supply_m (historyx lr) = Some 0 /\
  view_m (historyx lcc) = Some [3; 1000; 3; 3; 0; 2; 2].
Proof. vm_compute. repeat split; reflexivity. Qed.
Definition reported (l : list event) (a : user_address) (i : N) : option N :=
  match adapter_get_balance mixd (disk (historyx l)) (AUser a) stok (Some (wrap64 i)) with Ok b => Some b | _ => None end.
(** The API on the state of epoch 2 (the state before it). *)
Example ledger_story_reports : reported l4 alice 2 = Some 990 /\ reported l4 bob 2 = Some 13.
Proof. vm_compute. split; reflexivity. Qed.
