(** * C49 is not vacuous: a pooled transaction, calls that keep it, the one that
    commits it, one that expires it, and a restart. *)
From Verif Require Import Base BaseFacts Hex Types FixedCodec StateAdapter Executor Mempool MempoolMore Merkle Bincode ConsMsg Proto Wire
  Storage StorageExamples Consensus ConsSpec Keccak MixSetup ConsExamples PropKept.
Local Open Scope N_scope.

(** The pooled transaction of this hash, by hash and timeout. *)
Definition pooled_at (m : machine) (t : signed_tx) : option (N * bool) :=
  match m with
  | Up n => match mp_pooled (nd_pool n) (st_tx_hash t) with
            | Some x => Some (u64v (rt_timeout (st_raw x)), heqb (st_tx_hash x) (st_tx_hash t))
            | None => None
            end
  | Down _ => Some (0, false)
  end.
(** Times out at the epoch the node already has (finding: such a transaction is accepted). *)
Definition raw9 : raw_tx := MkRaw chainx (mixd [x09]) (wrap64 0) (MkFee stok (wrap64 1000)) (Transfer bob (MkCarrying stok 10)).
Definition tx9 : signed_tx := MkSigned raw9 (mixd (enc_raw raw9)) [x01] [x05].
Definition propose1 : event := EvCall (CallPropose (wrap64 1) (wrap64 50)).
Definition lk : list event := l1 ++ [EvCall (CallInsert false tx9 (Ok tt))].

Example kept_runs :
  pooled_at (historyx l1) tx1 = Some (20, true) /\
  pooled_at (historyx (l1 ++ [propose1; EvCall (CallInsert true tx1 (Ok tt)); EvCall (CallCheck (mixd (enc_pill p1)) p1 (Ok []) (Ok []))])) tx1
    = Some (20, true) /\
  pooled_at (historyx l2) tx1 = None /\
  pooled_at (historyx lk) tx9 = Some (0, true) /\ pooled_at (historyx (lk ++ [propose1])) tx9 = None /\
  pooled_at (historyx (lk ++ [propose1])) tx1 = Some (20, true) /\
  pooled_at (historyx (l1 ++ [EvCrash (CallPropose (wrap64 1) (wrap64 50)) 0; EvBoot canon_order canon_order])) tx1 = None.
Proof. vm_compute. repeat split; reflexivity. Qed.

(** The call that takes it out, in the terms of the theorem. *)
Example kept_committed : takes_out mixd (cf_gap cfx) tx1 (match historyx l1 with Up n => n | Down _ => MkNode (start_status mixd cfx (genesis_epoch mixd cfx (mixd []))) [] (mp_new 0%nat (wrap64 0)) (∅, ∅) Idle [] end)
  (CallCommit (wrap64 1) (commit_of 1 p1)).
Proof.
  apply out_committed. pose proof (proj1 story_same_transaction_twice) as E.
  change (cm_pill (commit_of 1 p1)) with p1. rewrite E. left.
Qed.
