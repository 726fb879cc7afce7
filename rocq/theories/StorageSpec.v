(** * StorageSpec: what a user of the storage expects, from the list of
    write operations alone. *)
From Verif Require Import Base Types Proto Wire Storage.
From Coq Require Strings.String.
Import String.StringSyntax.
Delimit Scope string_scope with string.
Local Open Scope N_scope.

Definition written_txs (ops : list st_op) : list signed_tx :=
  concat (map (fun o => match o with InsTransactions l => l | _ => [] end) ops).
Definition written_receipts (ops : list st_op) : list receipt :=
  concat (map (fun o => match o with InsReceipts l => l | _ => [] end) ops).
Definition written_epochs (ops : list st_op) : list epoch :=
  concat (map (fun o => match o with InsEpoch e => [e] | _ => [] end) ops).
Definition written_proofs (ops : list st_op) : list proof :=
  concat (map (fun o => match o with UpdProof p => [p] | _ => [] end) ops).

(** The last written value with a given key, if any. *)
Definition last_tx (ops : list st_op) (h : hash) : option signed_tx :=
  last (filter (fun t => st_tx_hash t = h) (written_txs ops)).
Definition last_receipt (ops : list st_op) (h : hash) : option receipt :=
  last (filter (fun r => rc_tx_hash r = h) (written_receipts ops)).
Definition last_epoch_at (ops : list st_op) (i : u64) : option epoch :=
  last (filter (fun e => eh_epoch_id (ep_header e) = i) (written_epochs ops)).
Definition last_epoch_hashed (digest : bytes -> hash) (ops : list st_op) (h : hash) : option epoch :=
  last (filter (fun e => epoch_index_key digest e = h) (written_epochs ops)).

(** A transaction or receipt that deploys something else than an asset
    contract is altered by the codec (C04). *)
Definition tx_plain (t : signed_tx) : Prop :=
  match rt_action (st_raw t) with Deploy _ ct => ct = CtAsset | _ => True end.
Definition receipt_plain (r : receipt) : Prop :=
  match rc_result r with RDeploy _ ct => ct = CtAsset | _ => True end.

(** Values whose encodings fit in memory. *)
Definition op_ok (o : st_op) : Prop :=
  match o with
  | InsTransactions l => Forall (fun t => tx_plain t /\ fits (wenc_signed t)) l
  | InsReceipts l => Forall (fun r => receipt_plain r /\ fits (wenc_receipt r)) l
  | InsEpoch e => fits (wenc_epoch e)
  | UpdProof p => fits (wenc_proof p)
  end.

(** The digest does not collide on the strings it is applied to: the two
    fixed texts and the headers of the epochs written. *)
Definition digest_inputs (ops : list st_op) : list bytes :=
  ascii "latest_hash"%string :: ascii "latest_proof"%string ::
  map (fun e => wenc_header (ep_header e)) (written_epochs ops).
Definition no_collision (digest : bytes -> hash) (l : list bytes) : Prop :=
  forall a b, a ∈ l -> b ∈ l -> digest a = digest b -> a = b.

Definition or_none {A} (o : option A) : sres A :=
  match o with Some a => Ok a | None => Err GetNone end.

(** ** One schema of an adapter as the user sees it: a partial function *)
Inductive ad_op (K V : Type) :=
| AInsert (k : K) (v : V)                              (* insert *)
| ARemove (k : K)                                      (* remove *)
| ABatch (ks : list K) (vs : list (option V)).         (* batch_modify *)
Arguments AInsert {K V}.
Arguments ARemove {K V}.
Arguments ABatch {K V}.

(** The adapter executing one call; a call that returns an error has no write. *)
Definition ad_step {K V} (col : category -> N) (s : schema K V) (m : db) (o : ad_op K V) : db :=
  match o with
  | AInsert k v => apply_write m (ad_insert col s k v)
  | ARemove k => apply_write m (ad_remove col s k)
  | ABatch ks vs => match ad_batch col s ks vs with Ok w => apply_write m w | _ => m end
  end.

Section MapSpec.
  Context {K V : Type} `{EqDecision K}.
  Definition upd (f : K -> option V) (k : K) (v : option V) : K -> option V :=
    fun x => if decide (x = k) then v else f x.
  Definition spec_step (f : K -> option V) (o : ad_op K V) : K -> option V :=
    match o with
    | AInsert k v => upd f k (Some v)
    | ARemove k => upd f k None
    | ABatch ks vs =>
        if (length ks =? length vs)%nat
        then fold_left (fun f p => upd f (fst p) (snd p)) (combine ks vs) f
        else f
    end.
End MapSpec.

(** The values written survive their own codec. *)
Definition values_ok {K V} (s : schema K V) (o : ad_op K V) : Prop :=
  match o with
  | AInsert _ v => sc_vdec s (sc_venc s v) = Ok v
  | ARemove _ => True
  | ABatch _ vs => Forall (fun v => match v with Some v => sc_vdec s (sc_venc s v) = Ok v | None => True end) vs
  end.
