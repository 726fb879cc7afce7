(** * C59: a concrete configuration meeting the hypotheses. *)
From Verif Require Import Base BaseFacts Hex Types Rlp RlpFacts FixedCodec CodecProps StateAdapter Executor ExecSpec Mempool Merkle Bincode ConsMsg PropConsMsg
  Proto Wire Storage StorageSpec StorageExamples Consensus ConsSpec ConsFacts ConsInv Keccak MixSetup ConsExamples Boot PropBoot.
From Coq Require Strings.String.
Import String.StringSyntax.
Delimit Scope string_scope with string.
Local Open Scope N_scope.

(** A toy curve: a private key is two bytes; its public key has one more in
    front. *)
Definition key0 (sk : bytes) : option bytes := match sk with [a; b] => Some [x02; a; b] | _ => None end.
Definition raw0 (vs : list bytes) : raw_config :=
  MkRawConfig (ascii "0x"%string ++ hash_as_hex chainx) (ascii "0a0B"%string) [ascii "ff"%string] vs (wrap64 1) (wrap64 10000) (wrap64 3000)
    (wrap64 10) (wrap64 100).
Definition good0 : raw_config := raw0 [hex_encode (ua bob); hex_encode (ua alice)].
(** A validator with a digit missing. *)
Definition bad0 : raw_config := raw0 [hex_encode (ua bob); removelast (hex_encode (ua alice))].
Definition self0 : user_address := match user_from_pubkey mixd [x02; x0a; x0b] with Ok u => u | _ => bob end.

Example good0_means : means mixd key0 (fun _ => true) good0 chainx self0 [bob; alice].
Proof.
  constructor.
  - vm_compute. reflexivity.
  - exists [x0a; x0b], [x02; x0a; x0b]. split; [vm_compute; reflexivity|]. split; [reflexivity|]. split; [reflexivity|]. vm_compute. reflexivity.
  - constructor; [|constructor; [|constructor]].
    + assert (match user_from_hex (hex_encode (ua bob)) with Ok v => bytes_eqb (ua v) (ua bob) | _ => false end = true) as H by (vm_compute; reflexivity).
      destruct (user_from_hex (hex_encode (ua bob))) as [v|x|]; [|discriminate H..]. f_equal. apply ua_eq, bytes_eqb_eq, H.
    + assert (match user_from_hex (hex_encode (ua alice)) with Ok v => bytes_eqb (ua v) (ua alice) | _ => false end = true) as H by (vm_compute; reflexivity).
      destruct (user_from_hex (hex_encode (ua alice))) as [v|x|]; [|discriminate H..]. f_equal. apply ua_eq, bytes_eqb_eq, H.
  - constructor; [|constructor]. exists [xff]. vm_compute. reflexivity.
  - vm_compute. discriminate.
Qed.
Example bad0_means : forall vs, ~ means mixd key0 (fun _ => true) bad0 chainx self0 vs.
Proof.
  intros vs [_ _ H _ _].
  assert (is_ok (map_res user_from_hex (rw_verifiers bad0)) = false) as X by (vm_compute; reflexivity).
  apply map_res_all in H. rewrite H in X. discriminate X.
Qed.
Notation main0 := (run_main mixd rootx key0 (fun _ => true) canon_order canon_order).
(** On an empty disk: the good one starts; the bad one stops, and the genesis
    epoch is there. *)
Definition started (r : res cn_err node * durable) : list N :=
  [match r.1 with Ok n => u64v (cs_epoch_id (nd_status n)) | _ => 99 end;
   match get_latest_epoch rocks_col mixd r.2.1 with Ok e => u64v (eh_epoch_id (ep_header e)) | _ => 99 end].
Example mains_run :
  started (main0 good0 (Some gen0) true (∅, ∅)) = [1; 0] /\ started (main0 bad0 (Some gen0) true (∅, ∅)) = [99; 0] /\
  started (main0 bad0 None true (∅, ∅)) = [99; 99].
Proof. vm_compute. repeat split; reflexivity. Qed.
(** The hypotheses of [C59_refused_after_writing_refuted]. *)
Example bad0_hypotheses :
  match get_latest_epoch rocks_col mixd (∅ : db) with Err GetNone => true | _ => false end = true /\
  match identity mixd key0 bad0 with Ok (c, u) => heqb c chainx && bytes_eqb (ua u) (ua self0) | _ => false end = true /\
  match genesis_state mixd rootx (config_of bad0 (chainx, self0) gen0 []) canon_order canon_order ∅ with
  | Ok (root, _) => blen (wenc_epoch (genesis_epoch mixd (config_of bad0 (chainx, self0) gen0 []) root)) <? two64
  | _ => false
  end = true /\
  heqb (LATEST_EPOCH_KEY mixd) (LATEST_PROOF_KEY mixd) = false.
Proof. vm_compute. repeat split; reflexivity. Qed.
(** Of [C59_other_chain_accepted_refuted]: the disk of the story of ConsExamples
    after epoch 1, with another chain id configured. *)
Definition other0 : raw_config := MkRawConfig (hash_as_hex (mixd [x77])) (rw_privkey good0) [] (rw_verifiers good0)
   (wrap64 1) (wrap64 10000) (wrap64 3000) (wrap64 10) (wrap64 100).
Example other0_runs :
  started (main0 other0 (Some gen0) true (disk (historyx l3))) = [2; 1] /\
  match get_latest_epoch rocks_col mixd (disk (historyx l3)).1 with Ok e => heqb (eh_chain_id (ep_header e)) (mixd [x77]) | _ => true end = false.
Proof. vm_compute. split; reflexivity. Qed.
