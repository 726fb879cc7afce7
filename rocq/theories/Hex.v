(** * Hex: the [hex] crate (0.3) as used by protocol, plus [clean_0x].

    The crate itself is not in /repo; its behaviour is modelled here:
    [hex::encode] writes two lower-case digits per byte, [hex::decode]
    rejects odd lengths first and accepts digits of either case. *)
From Verif Require Import Base.
Local Open Scope N_scope.

(** [hex::FromHexError]; the [index] of the offending character is omitted. *)
Inductive hex_err := OddLength | InvalidHexCharacter.

(** One hex digit, lower case ('0' = 48, 'a' = 97). *)
Definition hex_digit (n : N) : byte :=
  if n <? 10 then byte_of (48 + n) else byte_of (87 + n).

(** [hex::encode], used in protocol/src/types/primitive.rs:73-75, 191-193. *)
Fixpoint hex_encode (b : bytes) : bytes :=
  match b with
  | [] => []
  | x :: r => hex_digit (bN x / 16) :: hex_digit (bN x mod 16) :: hex_encode r
  end.

(** The crate's [val] helper: '0'-'9', 'a'-'f', 'A'-'F'. *)
Definition hex_val (c : byte) : option N :=
  if (48 <=? bN c) && (bN c <=? 57) then Some (bN c - 48)
  else if (97 <=? bN c) && (bN c <=? 102) then Some (bN c - 87)
  else if (65 <=? bN c) && (bN c <=? 70) then Some (bN c - 55)
  else None.

Fixpoint hex_pairs (b : bytes) : res hex_err bytes :=
  match b with
  | [] => Ok []
  | [_] => Err OddLength
  | h :: l :: r =>
      let? vh := ok_or (hex_val h) InvalidHexCharacter in
      let? vl := ok_or (hex_val l) InvalidHexCharacter in
      let? t := hex_pairs r in
      Ok (byte_of (vh * 16 + vl) :: t)
  end.

(** [hex::decode]: odd length is reported before any bad character. *)
Definition hex_decode (b : bytes) : res hex_err bytes :=
  if Nat.even (length b) then hex_pairs b else Err OddLength.

(** [clean_0x], protocol/src/types/primitive.rs:386-392 and
    protocol/src/fixed_codec/transaction.rs:277-283: drops one leading "0x". *)
Definition clean_0x (s : bytes) : bytes :=
  match s with
  | a :: b :: r => if beqb a x30 && beqb b x78 then r else s
  | _ => s
  end.

(** ** Facts *)
From Verif Require Import BaseFacts.
From Coq Require Import ZifyBool ZifyNat ZifyN.
Ltac Zify.zify_post_hook ::= Z.div_mod_to_equations.

Lemma hex_val_digit n : n < 16 -> hex_val (hex_digit n) = Some n.
Proof.
  intros H.
  assert (n = 0 \/ n = 1 \/ n = 2 \/ n = 3 \/ n = 4 \/ n = 5 \/ n = 6 \/ n = 7 \/
          n = 8 \/ n = 9 \/ n = 10 \/ n = 11 \/ n = 12 \/ n = 13 \/ n = 14 \/ n = 15) as D by lia.
  repeat (destruct D as [->|D]; [reflexivity|]). subst; reflexivity.
Qed.

Lemma hex_encode_length b : length (hex_encode b) = (2 * length b)%nat.
Proof. induction b as [|x b IH]; cbn; [reflexivity|]. rewrite IH. lia. Qed.

Lemma hex_pairs_encode b : hex_pairs (hex_encode b) = Ok b.
Proof.
  induction b as [|x b IH]; [reflexivity|].
  cbn [hex_encode hex_pairs].
  pose proof (bN_lt x) as Hx.
  rewrite hex_val_digit by (apply N.div_lt_upper_bound; lia).
  rewrite hex_val_digit by (apply N.mod_lt; lia).
  cbn [ok_or rbind]. rewrite IH. cbn [rbind]. do 2 f_equal.
  replace (bN x / 16 * 16 + bN x mod 16) with (bN x)
    by (rewrite N.mul_comm; apply N.div_mod; lia).
  apply byte_of_bN.
Qed.

Lemma hex_decode_encode b : hex_decode (hex_encode b) = Ok b.
Proof.
  unfold hex_decode. rewrite hex_encode_length.
  replace (Nat.even (2 * length b)) with true; [apply hex_pairs_encode|].
  symmetry. apply Nat.even_spec. exists (length b). reflexivity.
Qed.

(** ASCII lower-casing of the letters A-Z. *)
Definition lower (c : byte) : byte :=
  if (65 <=? bN c) && (bN c <=? 90) then byte_of (bN c + 32) else c.

Lemma hex_val_lower_spec c v :
  hex_val c = Some v -> lower c = hex_digit v /\ v < 16.
Proof. destruct c; vm_compute; intros [= <-]; split; reflexivity. Qed.

Lemma hex_digit_lower c v : v < 16 -> lower c = hex_digit v -> hex_val c = Some v.
Proof.
  intros H E.
  assert (n : hex_val (lower c) = Some v) by (rewrite E; apply hex_val_digit, H).
  clear E. revert n. destruct c; vm_compute; intros [= <-]; try reflexivity.
Qed.

Lemma hex_pairs_spec s b :
  hex_pairs s = Ok b <-> map lower s = hex_encode b.
Proof.
  split.
  - revert b. induction s as [s IH] using (induction_ltof1 _ (@length byte)).
    unfold ltof in IH. destruct s as [|h [|l r]]; cbn [hex_pairs]; intros b.
    + intros [= <-]; reflexivity.
    + discriminate.
    + destruct (hex_val h) as [vh|] eqn:Eh; [|discriminate]. cbn [ok_or rbind].
      destruct (hex_val l) as [vl|] eqn:El; [|discriminate]. cbn [ok_or rbind].
      destruct (hex_pairs r) as [t| |] eqn:Er; try discriminate. cbn [rbind].
      intros [= <-]. cbn [map hex_encode].
      destruct (hex_val_lower_spec _ _ Eh) as [-> Hh].
      destruct (hex_val_lower_spec _ _ El) as [-> Hl].
      rewrite bN_byte_of_small by lia.
      replace ((vh * 16 + vl) / 16) with vh by lia.
      replace ((vh * 16 + vl) mod 16) with vl by lia.
      do 2 f_equal. apply IH; [cbn; lia|exact Er].
  - revert s. induction b as [|x b IH]; intros s; cbn [hex_encode].
    + destruct s; [reflexivity|discriminate].
    + destruct s as [|h [|l r]]; cbn [map]; try discriminate.
      intros [= Eh El Er]. cbn [hex_pairs].
      pose proof (bN_lt x) as Hx.
      assert (H1 : bN x / 16 < 16) by lia. assert (H2 : bN x mod 16 < 16) by lia.
      rewrite (hex_digit_lower _ _ H1 Eh), (hex_digit_lower _ _ H2 El).
      cbn [ok_or rbind]. rewrite (IH _ Er). cbn [rbind]. do 2 f_equal.
      replace (bN x / 16 * 16 + bN x mod 16) with (bN x)
        by (rewrite N.mul_comm; apply N.div_mod; lia).
      apply byte_of_bN.
Qed.

(** Acceptance: a string decodes to [b] iff it is, up to letter case, the
    canonical hex form of [b]. *)
Lemma hex_decode_spec s b :
  hex_decode s = Ok b <-> map lower s = hex_encode b.
Proof.
  unfold hex_decode. rewrite <- hex_pairs_spec.
  destruct (Nat.even (length s)) eqn:E; [reflexivity|].
  split; [discriminate|]. intros H. exfalso. apply hex_pairs_spec in H.
  apply (f_equal (@length byte)) in H. rewrite map_length, hex_encode_length in H.
  rewrite H in E. rewrite Nat.even_mul in E. discriminate.
Qed.

Lemma hex_pairs_no_panic s : hex_pairs s <> Panic.
Proof.
  induction s as [s IH] using (induction_ltof1 _ (@length byte)).
  unfold ltof in IH. destruct s as [|h [|l r]]; cbn [hex_pairs]; try discriminate.
  destruct (hex_val h); [|discriminate]. destruct (hex_val l); [|discriminate].
  cbn [ok_or rbind]. specialize (IH r ltac:(cbn; lia)).
  destruct (hex_pairs r); try discriminate. contradiction.
Qed.

Lemma hex_decode_no_panic s : hex_decode s <> Panic.
Proof. unfold hex_decode. destruct (Nat.even _); [apply hex_pairs_no_panic|discriminate]. Qed.

Lemma hex_encode_inj a b : hex_encode a = hex_encode b -> a = b.
Proof. intros E. pose proof (hex_decode_encode a) as H. rewrite E, hex_decode_encode in H. congruence. Qed.

Lemma hex_encode_app a b : hex_encode (a ++ b) = hex_encode a ++ hex_encode b.
Proof. induction a as [|x a IH]; cbn; [reflexivity|]. rewrite IH. reflexivity. Qed.

(** A hex string never starts with "0x" (its second digit is not 'x'). *)
Lemma hex_digit_not_x n : n < 16 -> beqb (hex_digit n) x78 = false.
Proof.
  intros H.
  assert (n = 0 \/ n = 1 \/ n = 2 \/ n = 3 \/ n = 4 \/ n = 5 \/ n = 6 \/ n = 7 \/
          n = 8 \/ n = 9 \/ n = 10 \/ n = 11 \/ n = 12 \/ n = 13 \/ n = 14 \/ n = 15) as D by lia.
  repeat (destruct D as [->|D]; [reflexivity|]). subst; reflexivity.
Qed.

Lemma clean_0x_encode b : clean_0x (hex_encode b) = hex_encode b.
Proof.
  destruct b as [|x b]; [reflexivity|]. cbn [hex_encode clean_0x].
  rewrite (hex_digit_not_x (bN x mod 16)) by (apply N.mod_lt; lia).
  rewrite andb_false_r. reflexivity.
Qed.

Lemma clean_0x_prefix s : clean_0x (x30 :: x78 :: s) = s.
Proof. reflexivity. Qed.

Lemma hex_digit_utf8 n : n < 16 -> bN (hex_digit n) < 128.
Proof.
  intros H. unfold hex_digit. destruct (n <? 10) eqn:E; rewrite bN_byte_of_small; lia.
Qed.

(** Hex text is ASCII, hence a valid Rust [String]. *)
Lemma ascii_utf8_fuel f b :
  (length b <= f)%nat -> Forall (fun x => bN x < 128) b -> utf8_valid f b = true.
Proof.
  revert b. induction f as [|f IH]; intros b Hl Hb.
  - destruct b; [reflexivity|cbn in Hl; lia].
  - destruct b as [|x b]; [reflexivity|]. cbn [utf8_valid].
    inversion Hb as [|? ? H1 H2]; subst. rewrite (proj2 (N.ltb_lt _ _) H1).
    apply IH; [cbn in Hl; lia|exact H2].
Qed.

Lemma hex_encode_ascii b : Forall (fun x => bN x < 128) (hex_encode b).
Proof.
  induction b as [|x b IH]; cbn [hex_encode]; [constructor|].
  pose proof (bN_lt x).
  constructor; [apply hex_digit_utf8, N.div_lt_upper_bound; lia|].
  constructor; [apply hex_digit_utf8, N.mod_lt; lia|exact IH].
Qed.

Lemma hex_encode_utf8 b : utf8 (hex_encode b) = true.
Proof. apply ascii_utf8_fuel; [lia|apply hex_encode_ascii]. Qed.
