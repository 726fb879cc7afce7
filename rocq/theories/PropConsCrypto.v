(** * C97: votes and proofs are authenticated. *)
From Verif Require Import Base BaseFacts Hex Types CodecProps ConsCrypto.
Local Open Scope N_scope.

(** What a node signs is accepted under the same hash by every node, as coming
    from the address of its public key -- if secp256k1 verifies what it signs
    and public keys have 33 bytes. *)
Theorem C97_signed_is_accepted :
  forall digest sec_sign sec_verify c h s,
  length (cr_public c) = 33%nat ->
  (forall m sig, sec_sign (cr_private c) m = Some sig -> sec_verify m sig (cr_public c) = true) ->
  cr_sign sec_sign c h = Ok s ->
  cr_verify digest sec_verify s h = Ok (x10 :: firstn 20 (sbytes (digest (cr_public c)))).
Proof.
  intros digest sec_sign sec_verify c h s Hl Hv. unfold cr_sign. destruct (sec_sign (cr_private c) h) as [sig|] eqn:E; [|discriminate].
  intros [= <-]. unfold cr_verify. rewrite app_length, Hl.
  replace (33 + length sig <? 33)%nat with false by (symmetry; apply Nat.ltb_ge; lia).
  rewrite (take_app_alt (cr_public c) sig 33 (eq_sym Hl)), (drop_app_alt (cr_public c) sig 33 (eq_sym Hl)).
  rewrite (Hv _ _ E). destruct (user_from_pubkey_spec digest (cr_public c)) as (a & -> & Ha). cbn [map_err rbind]. rewrite Ha. reflexivity.
Qed.
Print Assumptions C97_signed_is_accepted.

(** An accepted signature begins with a public key under which the rest is a
    signature of the hash, and the voter it is attributed to is the address of
    that key, for every input; nothing else is accepted. *)
Theorem C97_accepted_iff :
  forall digest sec_verify s h a,
  cr_verify digest sec_verify s h = Ok a <->
  exists pub sig, s = pub ++ sig /\ length pub = 33%nat /\ sec_verify h sig pub = true /\
    a = x10 :: firstn 20 (sbytes (digest pub)).
Proof.
  intros digest sec_verify s h a. unfold cr_verify. destruct (length s <? 33)%nat eqn:El.
  - apply Nat.ltb_lt in El. split; [discriminate|]. intros (pub & sig & -> & Hp & _). rewrite app_length in El. lia.
  - apply Nat.ltb_ge in El. destruct (user_from_pubkey_spec digest (firstn 33 s)) as (u & Hu & Ha). rewrite Hu. cbn [map_err rbind]. split.
    + destruct (sec_verify h (skipn 33 s) (firstn 33 s)) eqn:Ev; [|discriminate]. intros [= <-].
      exists (firstn 33 s), (skipn 33 s). split; [symmetry; apply firstn_skipn|]. split; [apply firstn_length_le, El|]. auto.
    + intros (pub & sig & -> & Hp & Hv & ->). rewrite (take_app_alt pub sig 33 (eq_sym Hp)) in *.
      rewrite (drop_app_alt pub sig 33 (eq_sym Hp)), Hv, Ha.
      reflexivity.
Qed.
Print Assumptions C97_accepted_iff.

(** But a signature of fewer than 33 bytes, which any peer can send, makes the
    check panic, *)
Theorem C97_short_signature_panics_refuted :
  forall digest sec_verify s h, cr_verify digest sec_verify s h = Panic <-> (length s < 33)%nat.
Proof.
  intros digest sec_verify s h. unfold cr_verify. destruct (length s <? 33)%nat eqn:El.
  - apply Nat.ltb_lt in El. tauto.
  - apply Nat.ltb_ge in El. destruct (user_from_pubkey_spec digest (firstn 33 s)) as (u & Hu & _). rewrite Hu. cbn [map_err rbind].
    split; [destruct (sec_verify _ _ _); discriminate|lia].
Qed.
Print Assumptions C97_short_signature_panics_refuted.

(** and an aggregated signature says nothing: every one is accepted, whatever
    it claims; from what an honest node makes of its votes nobody can tell who
    voted; every proof of every epoch is accepted. *)
Theorem C97_aggregates_prove_nothing_refuted :
  (forall s : agg_signature, cr_verify_aggregated s = Ok tt) /\
  ~ (exists who : bytes -> list bytes, forall signatures voters s, cr_aggregate signatures voters = Ok s -> who s = voters) /\
  (forall id (p : proof), check_proof id p = Ok tt).
Proof.
  split; [reflexivity|]. split; [|reflexivity]. intros (who & H).
  pose proof (H [] [] [] eq_refl) as H1. pose proof (H [] [[x00]] [] eq_refl) as H2. congruence.
Qed.
Print Assumptions C97_aggregates_prove_nothing_refuted.

(** A scheme meeting the hypotheses: the signature repeats key and message. *)
Definition toy_sign (k m : bytes) : option bytes := Some (k ++ m).
Definition toy_verify (m s p : bytes) : bool := if decide (s = p ++ m) then true else false.
Example toy_meets : let c := MkCrypto (repeat x02 33) (repeat x02 33) in
  length (cr_public c) = 33%nat /\
  (forall m sig, toy_sign (cr_private c) m = Some sig -> toy_verify m sig (cr_public c) = true) /\
  cr_sign toy_sign c [x07] = Ok (repeat x02 66 ++ [x07]).
Proof.
  cbn [cr_public cr_private]. split; [reflexivity|]. split; [|reflexivity]. intros m sig [= <-]. unfold toy_verify.
  rewrite decide_True by reflexivity. reflexivity.
Qed.
