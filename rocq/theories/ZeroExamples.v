(** * C113, continued: a concrete node that answers zero. *)
From Verif Require Import Base BaseFacts Hex Types Rlp RlpFacts FixedCodec StateAdapter Executor ExecSpec Mempool MempoolSpec MempoolMore Merkle Bincode ConsMsg PropConsMsg
  Proto Wire WireFacts Storage StorageSpec StorageFacts StorageExamples Consensus ConsSpec ConsFacts ConsInv LedgerSpec ReplicaSpec Keccak MixSetup ConsExamples LedgerExamples
  SyncExamples StuckExamples HaltExamples ImmutExamples Api ApiSpec PropApi ApiExamples PropEnd EndExamples ReplicaExamples NodesExamples ApiFacts PropBalance BalanceExamples PropAgree AgreeExamples PropZero.
Local Open Scope N_scope.

(** The node that committed epoch 1 was told of epoch 5 and is given a forged
    epoch 0 whose header names no state it has (ImmutExamples, C96): alice's
    1000 are 0 from then on, at epoch 0 and at the latest epoch, which the
    forged one has become. *)
Definition lzero : list event := lf ++ [pull forged []].
Lemma zero_answers :
  says (historyx lf) alice None = Some [48; 51; 101; 56] /\ says (historyx lf) alice (Some [48]) = Some [48; 51; 101; 56] /\
  says (historyx lzero) alice None = Some [48; 48] /\ says (historyx lzero) alice (Some [48]) = Some [48; 48].
Proof. vm_compute. repeat split; reflexivity. Qed.
(** The hypotheses of C113_answer_or_zero, met by both: the first has the state
    its latest epoch names, the second has not. *)
Definition held (m : machine) : option epoch := match stored mixd (disk m) None with Ok e => Some e | _ => None end.
Lemma zero_good : states_b lf && states_b lzero && match held (historyx lf) with Some _ => true | None => false end && match held (historyx lzero) with Some _ => true | None => false end = true.
Proof. vm_compute. reflexivity. Qed.
Ltac ordered := repeat (apply Forall_cons; split; [intros m; first [exact I|split; apply (canons_ok O)|exact canons_ok]|]); apply Forall_nil; exact I.
Lemma lf_orders : Forall (fun e => forall m, orders_ok m e) lf.
Proof. ordered. Qed.
Lemma lzero_orders : Forall (fun e => forall m, orders_ok m e) lzero.
Proof. apply Forall_app. split; [exact lf_orders|]. ordered. Qed.
Lemma held_ok m : match held m with Some _ => true | None => false end = true -> exists e, stored mixd (disk m) None = Ok e.
Proof. unfold held. destruct (stored mixd (disk m) None) as [e|x|]; [intros _; exists e; reflexivity|discriminate..]. Qed.
Example zero_hypotheses :
  rootx ∅ = hash_from_empty mixd /\ parsed_genesis (cf_genesis cfx) [x60; x61] gen0_allocs /\ asks None None /\
  names (out_address (AUser alice)) (out_hash stok) (AUser alice) stok /\
  (states_ok mixd rootx showx verifyx comb_shapes cfx lf /\ exists e, stored mixd (disk (historyx lf)) None = Ok e) /\
  (states_ok mixd rootx showx verifyx comb_shapes cfx lzero /\ exists e, stored mixd (disk (historyx lzero)) None = Ok e).
Proof.
  pose proof zero_good as H. apply andb_true_iff in H as [H H4]. apply andb_true_iff in H as [H H3]. apply andb_true_iff in H as [H1 H2].
  split; [apply sized_eq; vm_compute; reflexivity|]. split; [exact gen0_parsed|]. split; [exact I|]. split.
  { split; [apply plain_text_of|]. split; [apply spells_encode|]. split; [apply plain_text_of|apply spells_encode]. }
  split; (split; [apply states_b_ok; [first [exact lf_orders|exact lzero_orders]|assumption]|apply held_ok; assumption]).
Qed.

(** The further hypotheses of C113_always_answered, met by both. *)
Lemma answered_good : seen_b lf && seen_b lzero = true.
Proof. vm_compute. reflexivity. Qed.
Ltac matched := repeat (apply Forall_cons; split; [intros m; first [exact I|reflexivity]|]); apply Forall_nil; exact I.
Example answered_hypotheses : Forall (fun l => epochs_ok mixd rootx showx verifyx comb_shapes cfx l /\ alwaysx replies_match l) [lf; lzero].
Proof.
  pose proof answered_good as H. apply andb_true_iff in H as [H1 H2].
  apply Forall_cons. split; [split; [apply seen_b_ok, H1|apply along_forall; matched]|].
  apply Forall_cons. split; [split; [apply seen_b_ok, H2|apply along_forall; matched]|]. apply Forall_nil. exact I.
Qed.
