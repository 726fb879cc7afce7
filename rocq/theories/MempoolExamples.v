(** * Concrete pools with Keccak-256: refutations of C30, C31, C33, C39, C46
    and non-vacuity of the hypotheses in PropMempool.v. *)
From Verif Require Import Base BaseFacts Hex Types Rlp FixedCodec TxMap TxMapFacts TxMapRun
  Mempool MempoolSpec MempoolFacts MempoolProps MempoolMore PropMempool Keccak.
Local Open Scope N_scope.

Definition chain0 : hash := keccak [x0b].
Definition vtrue : bytes -> bytes -> bytes -> bool := fun _ _ _ => true.
Definition ex_tx (k : byte) (timeout cycles : N) : signed_tx :=
  let raw := MkRaw chain0 (Sized (n := 32) (k :: repeat x00 31) eq_refl) (wrap64 timeout) (MkFee chain0 (wrap64 cycles))
                   (Transfer (UA (repeat x10 21) eq_refl) (MkCarrying chain0 5)) in
  MkSigned raw (keccak (enc_raw raw)) [x01] [x05].
Definition at_epoch (n : N) : env := MkEnv (Ok (chain0, wrap64 n)) (fun _ => Ok false).
Definition ins (k : byte) (timeout cycles : N) : mp_op := OpInsert false (ex_tx k timeout cycles) (at_epoch 1) (Ok tt).
Definition gap20 : u64 := wrap64 20.
Notation run := (mp_run keccak vtrue gap20).
Notation pool n ops := (pool_after keccak vtrue n gap20 gap20 ops).
Definition hash_k (k : byte) (timeout cycles : N) : hash := st_tx_hash (ex_tx k timeout cycles).

Definition heq (a b : hash) : bool := bool_decide (a = b).
Fixpoint heqs (a b : list hash) : bool :=
  match a, b with [], [] => true | x :: a', y :: b' => heq x y && heqs a' b' | _, _ => false end.
Lemma heqs_eq a b : heqs a b = true -> a = b.
Proof.
  revert b. induction a as [|x a IH]; intros [|y b]; try discriminate; [reflexivity|]. cbn. intros H.
  apply andb_true_iff in H as [H1 H2]. apply bool_decide_eq_true in H1. f_equal; auto.
Qed.

(** ** C30: flushed transactions keep their queue slot *)
Definition fill : list mp_op :=
  concat (map (fun k => [ins k 10 100; OpFlush [hash_k k 10 100]]) [x01; x02; x03; x04]).
Lemma fill_chk :
  let p := pool 1 fill in
  ((mp_len p =? 0)%nat &&
   match (mp_insert keccak vtrue gap20 p false (ex_tx x05 10 100) (at_epoch 1) (Ok tt)).1 with
   | Err (MInsert h) => heq h (hash_k x05 10 100) | _ => false end)%bool = true.
Proof. vm_compute. reflexivity. Qed.
Lemma ok5 : tx_ok keccak vtrue gap20 (at_epoch 1) (ex_tx x05 10 100).
Proof. vm_compute. reflexivity. Qed.

Theorem C30_empty_pool_rejects_refuted : exists ops t e,
  let p := pool_after keccak vtrue 1 gap20 gap20 ops in
  mp_len p = 0%nat /\ tx_ok keccak vtrue gap20 e t /\ mp_contains p (st_tx_hash t) = false /\
  (mp_insert keccak vtrue gap20 p false t e (Ok tt)).1 = Err (MInsert (st_tx_hash t)).
Proof.
  exists fill, (ex_tx x05 10 100), (at_epoch 1). cbn zeta. pose proof fill_chk as H. cbn zeta in H.
  apply andb_true_iff in H as [H1 H2]. apply Nat.eqb_eq in H1.
  split; [exact H1|]. split; [exact ok5|]. split.
  - destruct (mp_contains (pool 1 fill) (st_tx_hash (ex_tx x05 10 100))) eqn:E; [exfalso|reflexivity].
    pose proof (pool_inv keccak vtrue 1 gap20 gap20 fill) as Hp.
    apply (contains_entry 1 gap20 _ Hp) in E. rewrite (len_entries 1 gap20 _ Hp) in H1.
    destruct (entries (pool 1 fill)); [inversion E|discriminate H1].
  - destruct (mp_insert _ _ _ _ _ _ _ _).1 as [|[]|]; try discriminate H2. apply bool_decide_eq_true in H2. rewrite H2. reflexivity.
Qed.
Print Assumptions C30_empty_pool_rejects_refuted.

(** The caller can be told an error although its transaction was accepted. *)
Theorem C30_error_although_accepted_refuted : forall err,
  let '(r, p) := mp_insert keccak vtrue gap20 (pool 1 []) false (ex_tx x05 10 100) (at_epoch 1) (Err err) in
  r = Err err /\ mp_pooled p (hash_k x05 10 100) = Some (ex_tx x05 10 100).
Proof.
  intros err. pose proof (C30_insert_outcome keccak vtrue 1 gap20 gap20 [] false (ex_tx x05 10 100) (at_epoch 1) (Err err)) as H.
  cbn zeta in H. destruct (mp_insert _ _ _ _ _ _ _ _) as [r p]. destruct H as [H _].
  destruct H as (H1 & H2 & _); [|auto]. split; [apply Nat.ltb_lt; reflexivity|]. split; [reflexivity|]. split; [exact ok5|apply Nat.ltb_lt; reflexivity].
Qed.
Print Assumptions C30_error_although_accepted_refuted.

(** ** C31: pulled proposals exceed the pool size *)
Definition big_sync : list mp_op :=
  [OpSync [hash_k x01 10 1; hash_k x02 10 1; hash_k x03 10 1]
          (fun _ => Ok [ex_tx x01 10 1; ex_tx x02 10 1; ex_tx x03 10 1])].
Theorem C31_sync_exceeds_pool_size_refuted : mp_len (pool 1 big_sync) = 3%nat.
Proof. vm_compute. reflexivity. Qed.
Print Assumptions C31_sync_exceeds_pool_size_refuted.

(** ** C33: a wrapping sum passes the limit *)
Definition wrapping : list mp_op := [ins x01 10 10; ins x02 10 18446744073709551611].
Definition two_txs : list signed_tx := [ex_tx x01 10 10; ex_tx x02 10 18446744073709551611].
Lemma wrap_chk : match (mp_package (pool 5 wrapping) (wrap64 10) (at_epoch 1)).1 with
  | Ok (o, _) => heqs o (map st_tx_hash two_txs) | _ => false end = true.
Proof. vm_compute. reflexivity. Qed.
Theorem C33_overflow_passes_limit_refuted : exists q,
  (mp_package (pool 5 wrapping) (wrap64 10) (at_epoch 1)).1 = Ok (map st_tx_hash two_txs, q) /\
  total_cycles two_txs = 18446744073709551621.
Proof.
  pose proof wrap_chk as H. destruct (mp_package _ _ _).1 as [[o q]|x|]; [|discriminate H|discriminate H].
  apply heqs_eq in H. subst o. exists q. split; [reflexivity|]. vm_compute. reflexivity.
Qed.
Print Assumptions C33_overflow_passes_limit_refuted.

(** ** C39: [ensure_order_txs] answers Ok, [get_full_txs] fails *)
Lemma ensure_chk :
  let '(r, p) := mp_ensure_order_txs (pool 5 []) [hash_k x01 10 1] (fun _ => Ok [ex_tx x02 10 1]) in
  match r, mp_get_full_txs p [hash_k x01 10 1] with
  | Ok _, Err (MMisMatch 1 0) => true | _, _ => false end = true.
Proof. vm_compute. reflexivity. Qed.
Theorem C39_wrong_answer_accepted_refuted : exists pull p,
  mp_ensure_order_txs (pool 5 []) [hash_k x01 10 1] pull = (Ok tt, p) /\
  mp_get_full_txs p [hash_k x01 10 1] = Err (MMisMatch 1 0).
Proof.
  exists (fun _ => Ok [ex_tx x02 10 1]). pose proof ensure_chk as H. destruct (mp_ensure_order_txs _ _ _) as [[[]|x|] p]; [|discriminate H|discriminate H].
  exists p. split; [reflexivity|]. destruct (mp_get_full_txs p _) as [|[]|]; try discriminate H.
  destruct require as [|[|]], response; try discriminate H. reflexivity.
Qed.
Print Assumptions C39_wrong_answer_accepted_refuted.

(** ... and packaging may drop an ensured transaction that expires. *)
Lemma expire_chk :
  let p0 := pool 5 [ins x01 10 1] in
  let '(r, p) := mp_ensure_order_txs p0 [hash_k x01 10 1] (fun _ => Err (MExternal 0)) in
  match r, mp_get_full_txs (mp_package p (wrap64 100) (at_epoch 10)).2 [hash_k x01 10 1] with
  | Ok _, Err (MMisMatch 1 0) => true | _, _ => false end = true.
Proof. vm_compute. reflexivity. Qed.
Theorem C39_package_drops_ensured_refuted : exists pull p,
  mp_ensure_order_txs (pool 5 [ins x01 10 1]) [hash_k x01 10 1] pull = (Ok tt, p) /\
  mp_get_full_txs (mp_package p (wrap64 100) (at_epoch 10)).2 [hash_k x01 10 1] = Err (MMisMatch 1 0).
Proof.
  exists (fun _ => Err (MExternal 0)). pose proof expire_chk as H. cbn zeta in H.
  destruct (mp_ensure_order_txs _ _ _) as [[[]|x|] p]; [|discriminate H|discriminate H].
  exists p. split; [reflexivity|]. destruct (mp_get_full_txs _ _) as [|[]|]; try discriminate H.
  destruct require as [|[|]], response; try discriminate H. reflexivity.
Qed.
Print Assumptions C39_package_drops_ensured_refuted.

(** ** C46: an already proposed transaction is proposed again *)
Definition again : list mp_op :=
  [ins x01 10 8; OpSync [hash_k x02 10 5] (fun _ => Ok [ex_tx x02 10 5])].
Lemma again_chk :
  match (mp_package (pool 5 again) (wrap64 10) (at_epoch 1)).1, mp_proposed (pool 5 again) (hash_k x02 10 5) with
  | Ok (_, q), Some true => heqs q [hash_k x02 10 5] | _, _ => false end = true.
Proof. vm_compute. reflexivity. Qed.
Theorem C46_proposed_again_refuted : exists o,
  mp_proposed (pool 5 again) (hash_k x02 10 5) = Some true /\
  (mp_package (pool 5 again) (wrap64 10) (at_epoch 1)).1 = Ok (o, [hash_k x02 10 5]).
Proof.
  pose proof again_chk as H. destruct (mp_package _ _ _).1 as [[o q]|x|]; [|discriminate H|discriminate H].
  destruct (mp_proposed _ _) as [[]|]; [|discriminate H|discriminate H]. apply heqs_eq in H. subst q. eauto.
Qed.
Print Assumptions C46_proposed_again_refuted.

(** ** Non-vacuity *)
(** A history using every operation, within the bounds of C32/C33, whose
    package returns three ordered and two proposed transactions. *)
Definition busy : list mp_op :=
  [ins x01 10 4; ins x02 2 1; ins x03 10 3; OpFlush [hash_k x03 10 3]; ins x04 10 5; ins x05 10 1;
   OpSync [hash_k x06 10 2] (fun _ => Ok [ex_tx x06 10 2]); ins x07 10 3; ins x08 10 9;
   OpEnsure [hash_k x09 10 1] (fun _ => Ok [ex_tx x09 10 1]); OpGetFull [hash_k x09 10 1; hash_k x01 10 4];
   OpPackage (wrap64 10) (at_epoch 2)].
Lemma small_ex k timeout cycles : (wrap64 cycles <? 9223372036854775808) = true -> small_tx (ex_tx k timeout cycles).
Proof. intros H. apply N.ltb_lt in H. exact H. Qed.
Lemma busy_small : Forall small_op busy.
Proof.
  unfold busy.
  repeat (apply Forall_cons; split; [first [exact I|apply small_ex; reflexivity|idtac]|]); [| |apply Forall_nil; exact I].
  - intros k txs E. injection E as <-. apply Forall_cons; split; [apply small_ex; reflexivity|apply Forall_nil; exact I].
  - apply N.ltb_lt. reflexivity.
Qed.
Lemma busy_result : match last (run (mp_new 10 gap20) busy).1 with
  | Some (RsPackage (Ok (o, q))) =>
      heqs o [hash_k x01 10 4; hash_k x04 10 5; hash_k x05 10 1] && heqs q [hash_k x06 10 2; hash_k x07 10 3]
  | _ => false end = true.
Proof. vm_compute. reflexivity. Qed.

(** The hypotheses of C39_ensured_txs_stay_available and C40_authentic_if_peers_are. *)
Lemma ex_hash k t c : keccak (enc_raw (st_raw (ex_tx k t c))) = st_tx_hash (ex_tx k t c).
Proof. unfold ex_tx. cbn [st_raw st_tx_hash]. reflexivity. Qed.
Definition store : list signed_tx := [ex_tx x01 10 4; ex_tx x02 10 1].
Definition answer (s : list signed_tx) (k : list hash) : res mp_err (list signed_tx) :=
  Ok (omap (fun h => find (fun t => heq (st_tx_hash t) h) s) k).
Definition honest := answer store.
Lemma answer_complete s k txs : answer s k = Ok txs -> length txs = length k ->
  forall h, h ∈ k -> exists t, t ∈ txs /\ st_tx_hash t = h.
Proof.
  intros [= E] Hl. pose proof (proj1 (omap_all _ k txs) (conj E Hl)) as F.
  intros h Hh. clear E Hl. induction F as [|a b l l' Hab F IH]; [inversion Hh|].
  apply elem_of_cons in Hh as [->|Hh].
  - exists b. split; [left|]. apply find_some in Hab as [_ Hab]. apply bool_decide_eq_true in Hab. exact Hab.
  - destruct (IH Hh) as (t & Ht & Hth). exists t. split; [right; exact Ht|exact Hth].
Qed.
Lemma answer_from s k txs : answer s k = Ok txs -> forall t, t ∈ txs -> In t s.
Proof.
  intros [= <-] t Ht. apply elem_of_list_omap in Ht as (h & _ & Ht). apply find_some in Ht as [Ht _]. exact Ht.
Qed.
Lemma honest_complete k txs : honest k = Ok txs -> length txs = length k ->
  forall h, h ∈ k -> exists t, t ∈ txs /\ st_tx_hash t = h.
Proof. exact (answer_complete store k txs). Qed.
Lemma honest_authentic k txs : honest k = Ok txs ->
  Forall (fun t => vtrue (sbytes (st_tx_hash t)) (st_signature t) (st_pubkey t) = true /\ keccak (enc_raw (st_raw t)) = st_tx_hash t) txs.
Proof.
  intros E. apply Forall_forall. intros t Ht. apply (answer_from store k txs E) in Ht. split; [reflexivity|].
  destruct Ht as [<-|[<-|[]]]; [exact (ex_hash x01 10 4)|exact (ex_hash x02 10 1)].
Qed.
Lemma ensure_example :
  match mp_ensure_order_txs (pool 10 busy) [hash_k x01 10 4; hash_k x02 10 1] honest with
  | (Ok _, p) => match mp_get_full_txs p [hash_k x01 10 4; hash_k x02 10 1] with Ok [a; b] => heq (st_tx_hash b) (hash_k x02 10 1) | _ => false end
  | _ => false end = true.
Proof. vm_compute. reflexivity. Qed.

(** C41_admitted_yet_never_packaged_refuted: timeout 1 at epoch 1 *)
Lemma admitted_example :
  match mp_insert keccak vtrue gap20 (pool 5 []) false (ex_tx x01 1 4) (at_epoch 1) (Ok tt) with
  | (Ok _, p) => match (mp_package p (wrap64 10) (at_epoch 1)).1 with Ok ([], []) => true | _ => false end
  | _ => false end = true.
Proof. vm_compute. reflexivity. Qed.

(** C45_dear_head_blocks_everything_refuted: a transaction of 11 cycles, limit
    10, and a cheap one behind it. *)
Definition dear : list mp_op := [ins x02 10 1; OpPackage (wrap64 10) (at_epoch 1); ins x03 10 1; OpPackage (wrap64 10) (at_epoch 2)].
Lemma dear_ok : tx_ok keccak vtrue gap20 (at_epoch 1) (ex_tx x01 10 11) /\
  Forall (fun o => match o with
    | OpFlush hs => st_tx_hash (ex_tx x01 10 11) ∉ hs
    | OpPackage limit e => limit < fee_cycle (rt_fee (st_raw (ex_tx x01 10 11))) /\
        forall ch epoch, en_latest e = Ok (ch, epoch) ->
          epoch < rt_timeout (st_raw (ex_tx x01 10 11)) /\ rt_timeout (st_raw (ex_tx x01 10 11)) <= (epoch + gap20) mod two64
    | _ => True end) dear.
Proof.
  split; [vm_compute; reflexivity|]. unfold dear.
  repeat (apply Forall_cons; split; [first [exact I|idtac]|]); [| |apply Forall_nil; exact I].
  - split; [apply N.ltb_lt; reflexivity|]. intros ch epoch H. injection H as _ <-.
    split; [apply N.ltb_lt; reflexivity|apply N.leb_le; reflexivity].
  - split; [apply N.ltb_lt; reflexivity|]. intros ch epoch H. injection H as _ <-.
    split; [apply N.ltb_lt; reflexivity|apply N.leb_le; reflexivity].
Qed.
Lemma dear_result : match (run (mp_new 5 gap20) (OpInsert false (ex_tx x01 10 11) (at_epoch 1) (Ok tt) :: dear)).1 with
  | [_; _; RsPackage (Ok ([], q)); _; RsPackage (Ok ([], _))] => true | _ => false end = true.
Proof. vm_compute. reflexivity. Qed.

(** C43: a sequence through every operation *)
Definition map_ops : list (map_op N) :=
  [MInsertOp (keccak [x01]) 1; MInsertOp (keccak [x02]) 2; MInsertOp (keccak [x01]) 3; MGet (keccak [x01]); MLen;
   MDeletes (seq 0 16) [keccak [x02]]; MContains (keccak [x02]); MRemove (keccak [x01]); MLen; MClear; MLen].
Lemma map_ops_ok : Forall op_ok map_ops.
Proof.
  unfold map_ops. repeat (apply Forall_cons; split; [first [exact I|idtac]|]); [|apply Forall_nil; exact I]. split.
  - apply Forall_forall. intros i Hi. apply elem_of_list_In, in_seq in Hi. lia.
  - intros h _. pose proof (get_index_lt h). apply elem_of_list_In, in_seq. lia.
Qed.
Lemma map_ops_result : tm_run tm_new map_ops =
  [AOpt None; AOpt None; AOpt (Some 3); AOpt (Some 1); ANat 2; AUnit; ABool false; AUnit; ANat 0; AUnit; ANat 0].
Proof. vm_compute. reflexivity. Qed.
