(** * Concrete requests meeting the hypotheses of the API theorems. *)
From Verif Require Import Base BaseFacts Hex Types Rlp RlpFacts FixedCodec StateAdapter Executor ExecSpec Mempool Merkle Bincode ConsMsg PropConsMsg StorageExamples
  Proto Wire Storage StorageSpec Consensus ConsSpec Keccak MixSetup ConsExamples Api ApiSpec ApiFacts PropApi.
Local Open Scope N_scope.

(** The transaction tx1 of ConsExamples.v written as a request: a "0x" here and
    there, capitals in one field. *)
Definition cap (t : text) : text := map (fun c => if (97 <=? c) && (c <=? 102) then c - 32 else c) t.
Definition zx (t : text) : text := 48 :: 120 :: t.
Definition in_raw1 : input_raw :=
  MkInRaw (zx (out_hash chainx)) [51; 69; 56] (out_hash stok) (cap (out_hash (mixd [x01]))) (43 :: out_u64 (wrap64 20)).
Definition in_act1 : input_transfer := MkInTransfer (zx [48; 97]) (out_hash stok) (zx (cap (out_address (AUser bob)))).
Definition in_enc1 : input_encryption := MkInEnc (out_hash (st_tx_hash tx1)) [48; 49] [48; 53].
Definition same_tx (o : option signed_tx * ares text) (t : signed_tx) : bool :=
  match o with (Some t', Ok _) => bytes_eqb (wenc_signed t') (wenc_signed t) | _ => false end.

Example request_sends_tx1 : same_tx (send_transfer (fun _ => Ok tt) in_raw1 in_act1 in_enc1) tx1 = true.
Proof. vm_compute. reflexivity. Qed.
Definition plain_b (t : text) : bool := forallb (fun c => (c <? 1114112) && negb (c =? 64256)) t.
Lemma plain_b_ok t : plain_b t = true -> plain t.
Proof.
  unfold plain_b, plain. rewrite forallb_forall. intros H. apply Forall_forall. intros c Hc. apply elem_of_list_In, H in Hc.
  apply andb_true_iff in Hc as [H1 H2]. apply N.ltb_lt in H1. apply negb_true_iff, N.eqb_neq in H2. auto.
Qed.
Example request_plain : plain_raw in_raw1 /\ plain_transfer in_act1 /\ plain_enc in_enc1.
Proof. repeat split; apply plain_b_ok; vm_compute; reflexivity. Qed.

(** Signed by the node: the key [2a] with public key [01] and signature [05]. *)
Definition keys (b : bytes) : option (bytes * (hash -> bytes)) :=
  if bytes_eqb b [x2a] then Some ([x01], fun _ => [x05]) else None.
Example unsafe_sends_tx1 : same_tx (send_unsafe_transfer mixd keys (fun _ => Ok tt) in_raw1 in_act1 [50; 65]) tx1 = true.
Proof. vm_compute. reflexivity. Qed.

(** Refused: an odd number of digits, "0X", a number of 17 digits. *)
Example refused :
  hex_to_vec_u8 (as_hex [49; 50; 51]) = Err (AHex OddLength) /\ hex_to_vec_u8 (as_hex [48; 88; 49; 50]) = Err (AHex InvalidHexCharacter) /\
  hex_to_u64 (as_hex (repeat 49 17)) = Err AOverflow /\ hex_to_u64 (as_hex []) = Err AEmpty /\ hex_to_u64 (as_hex [43]) = Err AEmpty.
Proof. vm_compute. auto. Qed.

(** ** Epoch 1 moves 10 from alice to bob (ConsExamples.v).  Asked for bob's
    balance at the latest epoch, the node answers 3; after that epoch it is
    13 ([bal_at]: the state root the node itself computed). *)
Definition ask_bob (m : machine) (id : option text) : option (text * N) :=
  match m with
  | Up n => match query_balance mixd (nd_disk n) (out_address (AUser bob)) (out_hash stok) id with
            | Ok t => Some (t, bal_at n bob) | _ => None end
  | Down _ => None
  end.
Example balance_lags : ask_bob (historyx l3) None = Some ([48; 51], 13) /\ ask_bob (historyx l3) (Some [49]) = Some ([48; 51], 13).
Proof. vm_compute. auto. Qed.
Example unknown_epoch_is_zero : ask_bob (historyx l3) (Some [57]) = Some ([48; 48], 13).
Proof. vm_compute. reflexivity. Qed.

(** The property fails on a real chain: the answer for the latest epoch is not
    the balance after it. *)
Theorem C81_balance_after_epoch_refuted : exists l n e t,
  historyx l = Up n /\ epochs_ok mixd rootx showx verifyx comb_shapes cfx l /\
  get_latest_epoch rocks_col mixd (nd_disk n).1 = Ok e /\
  query_balance mixd (nd_disk n) (out_address (AUser bob)) (out_hash stok) None = Ok t /\
  exists x, Executor.from_root mixd chainx (cs_state_root (nd_status n)) (nd_disk n).2 (wrap64 0) (wrap64 1) (AUser carol) = Ok x /\
    ~ spells_amount t (bal (committed x) (AUser bob) stok).
Proof.
  exists l3. destruct (historyx l3) as [d|n] eqn:E; [exfalso; assert (match historyx l3 with Down _ => true | Up _ => false end = false) as X by (vm_compute; reflexivity); rewrite E in X; discriminate|].
  exists n.
  assert (is_ok (get_latest_epoch rocks_col mixd (nd_disk n).1) = true) as H1.
  { assert (match historyx l3 with Down _ => false | Up n => is_ok (get_latest_epoch rocks_col mixd (nd_disk n).1) end = true) as X by (vm_compute; reflexivity).
    rewrite E in X. exact X. }
  destruct (get_latest_epoch rocks_col mixd (nd_disk n).1) as [e| |]; try discriminate H1. exists e.
  pose proof (proj1 balance_lags) as H2. unfold ask_bob in H2. rewrite E in H2.
  destruct (query_balance mixd (nd_disk n) (out_address (AUser bob)) (out_hash stok) None) as [t| |]; try discriminate H2. exists t.
  split; [reflexivity|]. split; [apply seen_b_ok; vm_compute; reflexivity|]. split; [reflexivity|]. split; [reflexivity|].
  assert (t = [48; 51] /\ bal_at n bob = 13) as [-> H3].
  { revert H2. generalize (bal_at n bob). intros k H2. injection H2 as -> ->. auto. }
  unfold bal_at in H3.
  destruct (Executor.from_root mixd chainx (cs_state_root (nd_status n)) (nd_disk n).2 (wrap64 0) (wrap64 1) (AUser carol)) as [x| |]; try discriminate H3.
  exists x. split; [reflexivity|]. rewrite H3. intros (body & vs & Hu & _ & Hv & En).
  assert (body = [48; 51]) as ->.
  { destruct Hu as [<-|X]; [reflexivity|]. discriminate X. }
  assert (Forall2 digit [48; 51] [0; 3]) as Hd by (constructor; [unfold digit; lia|constructor; [unfold digit; lia|constructor]]).
  rewrite (digits_fun _ _ _ Hv Hd) in En. discriminate En.
Qed.
Print Assumptions C81_balance_after_epoch_refuted.

(** The hypotheses of [C81_balance_before_epoch_refuted] on that chain: epoch 1
    in the middle of its commit carries the node's root, the commit succeeds,
    and the old state can still be opened afterwards. *)
Definition before_ready (m : machine) : bool :=
  match m with
  | Up n =>
      match nd_busy n with
      | Committing _ p _ _ => heqb (eh_state_root (ep_header (pl_epoch p))) (cs_state_root (nd_status n)) &&
          match runx rest n with
          | (Ok _, n', _) => fits_b (nd_disk n') &&
              is_ok (Executor.from_root mixd chainx (cs_state_root (nd_status n)) (nd_disk n').2 (wrap64 0) (wrap64 1) (AUser carol))
          | _ => false
          end
      | _ => false
      end
  | Down _ => false
  end.
Example before_hypotheses : before_ready (historyx l2) = true.
Proof. vm_compute. reflexivity. Qed.
