(** * Messages between nodes: core/consensus/src/{fixed_types,message}.rs,
    core/mempool/src/adapter/message.rs, core/network/src/message/serde*.rs. *)
From Verif Require Import Base BaseFacts Hex Types Rlp RlpFacts FixedCodec FixedCodecFacts CodecProps Proto ProtoFacts Wire WireFacts Bincode.
From Coq Require Strings.String.
Import String.StringSyntax.
Delimit Scope string_scope with string.
Local Open Scope N_scope.

Inductive msg_err := MBincode | MWire (e : wire_err) | MFixed (e : rlp_err).
Notation mres := (res msg_err).

(** [serde_multi], serde_multi.rs:20-107 with [serde], serde.rs:7-43: a vector
    of byte strings, each the protobuf encoding of one element. *)
Definition enc_multi {A} (enc : A -> bytes) (l : list A) : bytes := benc_vec (fun a => benc_bytes (enc a)) l.
Definition dec_multi {A} (dec : bytes -> wres A) (b : bytes) : mres (list A) :=
  match bdec_vec bdec_bytes b with
  | Some (l, _) => map_err MWire (map_res dec l)
  | None => Err MBincode
  end.

(** [FixedEpochID], fixed_types.rs:92-101 *)
Definition enc_fixed_epoch_id (i : u64) : bytes := benc_u64 i.
Definition dec_fixed_epoch_id (b : bytes) : mres u64 :=
  match bdec_u64 b with Some (n, _) => Ok n | None => Err MBincode end.

(** [PullTxsRequest], fixed_types.rs:103-113; [MsgPullTxs], mempool message.rs:66-70 *)
Definition enc_hashes (l : list hash) : bytes := enc_multi wenc_hash l.
Definition dec_hashes (b : bytes) : mres (list hash) := dec_multi wdec_hash b.
(** [FixedSignedTxs], fixed_types.rs:115-141; [MsgNewTxs], [MsgPushTxs], mempool message.rs:18-22, 72-76 *)
Definition enc_txs (l : list signed_tx) : bytes := enc_multi wenc_signed l.
Definition dec_txs (b : bytes) : mres (list signed_tx) := dec_multi wdec_signed b.

(** [ConsensusRpcRequest], fixed_types.rs:15-19 *)
Inductive rpc_request := RqEpoch (id : u64) | RqTxs (l : list hash).
Definition enc_request (r : rpc_request) : bytes :=
  match r with RqEpoch i => le 4 0 ++ benc_u64 i | RqTxs l => le 4 1 ++ enc_hashes l end.
Definition dec_request (b : bytes) : mres rpc_request :=
  match dec_le 4 b with
  | Some (0, r) => let? i := dec_fixed_epoch_id r in Ok (RqEpoch i)
  | Some (1, r) => let? l := dec_hashes r in Ok (RqTxs l)
  | _ => Err MBincode
  end.

(** [ConsensusRpcResponse], fixed_types.rs:21-66: the last byte is the tag.
    [bytes.split_off(len - 1)] panics on an empty message (the subtraction
    wraps), an unknown tag is [unreachable!()]. *)
Inductive rpc_response := RpEpoch (e : epoch) | RpTxs (l : list signed_tx).
Definition enc_response (r : rpc_response) : bytes :=
  match r with
  | RpEpoch e => enc_epoch e ++ [x61]
  | RpTxs l => enc_txs l ++ [x62]
  end.
Definition dec_response (b : bytes) : mres rpc_response :=
  match last b with
  | None => Panic
  | Some x61 => let? e := map_err MFixed (dec_epoch (removelast b)) in Ok (RpEpoch e)
  | Some x62 => let? l := dec_txs (removelast b) in Ok (RpTxs l)
  | Some _ => Panic
  end.

(** [FixedPill], fixed_types.rs:68-90 *)
Definition enc_fixed_pill (p : pill) : bytes := enc_pill p.
Definition dec_fixed_pill (b : bytes) : mres pill := map_err MFixed (dec_pill b).

(** [Proposal], [Vote], [QC], [RichEpochID] (message.rs:24-58): a [Vec<u8>]. *)
Definition enc_blob (b : bytes) : bytes := benc_bytes b.
Definition dec_blob (b : bytes) : mres bytes :=
  match bdec_bytes b with Some (x, _) => Ok x | None => Err MBincode end.

(** ** Facts *)
Lemma bdec_many_app {A B} (e : A -> bytes) (f : A -> B) (d : bdec B) l r :
  Forall (fun a => forall r, d (e a ++ r) = Some (f a, r)) l ->
  bdec_many d (length l) (concat (map e l) ++ r) = Some (map f l, r).
Proof.
  induction 1 as [|a l Ha Hl IH]; [reflexivity|].
  cbn [length bdec_many map concat]. rewrite <- app_assoc, Ha, IH. reflexivity.
Qed.

Lemma concat_long {A} (e : A -> bytes) l : (forall a, (1 <= length (e a))%nat) ->
  (length l <= length (concat (map e l)))%nat.
Proof.
  intros H. induction l as [|a l IH]; [cbn; lia|]. cbn [map concat length]. rewrite app_length. specialize (H a). lia.
Qed.

Lemma bdec_vec_bytes {A} (enc : A -> bytes) l r : fits (benc_vec (fun a => benc_bytes (enc a)) l) ->
  bdec_vec bdec_bytes (benc_vec (fun a => benc_bytes (enc a)) l ++ r) = Some (map enc l, r).
Proof.
  intros Hf.
  assert (length l <= length (concat (map (fun a => benc_bytes (enc a)) l)))%nat as Hlong.
  { apply concat_long. intros a. unfold benc_bytes. rewrite app_length, le_length. lia. }
  unfold benc_vec in *. unfold fits in Hf. rewrite blen_app in Hf. unfold blen at 1 in Hf. rewrite le_length in Hf.
  unfold bdec_vec. rewrite <- app_assoc, dec_le_app.
  2:{ change (256 ^ N.of_nat 8) with two64. unfold blen in Hf. lia. }
  destruct (N.leb_spec (N.of_nat (length l)) (blen (concat (map (fun a => benc_bytes (enc a)) l) ++ r))) as [_|H].
  2:{ exfalso. rewrite blen_app in H. unfold blen in H. lia. }
  rewrite Nat2N.id. apply (bdec_many_app (fun a => benc_bytes (enc a)) enc). apply Forall_forall. intros a Ha r'.
  apply bdec_bytes_app. unfold fits.
  assert (blen (enc a) <= blen (concat (map (fun a => benc_bytes (enc a)) l))); [|lia].
  clear -Ha. induction l as [|b l IH]; [inversion Ha|]. cbn [map concat]. rewrite blen_app.
  apply elem_of_cons in Ha as [->|Ha]; [|specialize (IH Ha); lia].
  unfold benc_bytes at 1. rewrite blen_app. lia.
Qed.

Lemma map_res_ok {E A B} (f : A -> res E B) (g : B -> A) l : (forall b, b ∈ l -> f (g b) = Ok b) -> map_res f (map g l) = Ok l.
Proof.
  induction l as [|b l IH]; intros H; [reflexivity|]. cbn [map map_res].
  rewrite (H b) by (apply elem_of_cons; left; reflexivity). cbn [rbind].
  rewrite IH; [reflexivity|]. intros x Hx. apply H. apply elem_of_cons; right; exact Hx.
Qed.

Lemma dec_enc_multi {A} (enc : A -> bytes) (dec : bytes -> wres A) l r :
  fits (enc_multi enc l) -> (forall a, a ∈ l -> dec (enc a) = Ok a) -> dec_multi dec (enc_multi enc l ++ r) = Ok l.
Proof.
  intros Hf H. unfold dec_multi, enc_multi. rewrite bdec_vec_bytes by exact Hf.
  rewrite map_res_ok by exact H. reflexivity.
Qed.

Lemma multi_fits_elem {A} (enc : A -> bytes) l a : a ∈ l -> fits (enc_multi enc l) -> fits (enc a).
Proof.
  intros Ha. unfold enc_multi, benc_vec, fits. rewrite blen_app. intros Hf.
  assert (blen (enc a) <= blen (concat (map (fun a => benc_bytes (enc a)) l))); [|lia].
  clear -Ha. induction l as [|b l IH]; [inversion Ha|]. cbn [map concat]. rewrite blen_app.
  apply elem_of_cons in Ha as [->|Ha]; [|specialize (IH Ha); lia].
  unfold benc_bytes at 1. rewrite blen_app. lia.
Qed.

Lemma removelast_snoc {A} (l : list A) x : removelast (l ++ [x]) = l.
Proof. apply removelast_last. Qed.
