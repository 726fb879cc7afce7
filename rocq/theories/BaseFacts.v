(** * Facts about Base. *)
From Verif Require Import Base.
From Coq Require Import ZifyBool ZifyNat ZifyN.
Local Open Scope N_scope.
Ltac Zify.zify_post_hook ::= Z.div_mod_to_equations.

Lemma bN_lt (b : byte) : bN b < 256.
Proof. destruct b; reflexivity. Qed.

Lemma bN_inj a b : bN a = bN b -> a = b.
Proof.
  intros H. assert (Some a = Some b) as [= ->]; [|reflexivity].
  rewrite <- (Byte.of_to_N a), <- (Byte.of_to_N b). unfold bN in H. rewrite H. reflexivity.
Qed.

Lemma bN_byte_of n : bN (byte_of n) = n mod 256.
Proof.
  unfold byte_of. destruct (Byte.of_N (n mod 256)) as [b|] eqn:E.
  - apply Byte.to_of_N in E. exact E.
  - apply Byte.of_N_None_iff in E. pose proof (N.mod_lt n 256 ltac:(discriminate)). lia.
Qed.

Lemma byte_of_bN b : byte_of (bN b) = b.
Proof. apply bN_inj. rewrite bN_byte_of. apply N.mod_small, bN_lt. Qed.

Lemma bN_byte_of_small n : n < 256 -> bN (byte_of n) = n.
Proof. intros H. rewrite bN_byte_of. apply N.mod_small, H. Qed.

Lemma beqb_eq a b : beqb a b = true <-> a = b.
Proof. unfold beqb. split; [apply Byte.byte_dec_bl | apply Byte.byte_dec_lb]. Qed.

Lemma bytes_eqb_eq a b : bytes_eqb a b = true <-> a = b.
Proof.
  revert b; induction a as [|x a IH]; destruct b as [|y b]; cbn; split; try discriminate; auto.
  - rewrite andb_true_iff, beqb_eq, IH. intros [-> ->]; reflexivity.
  - intros [= -> ->]. rewrite andb_true_iff, beqb_eq, IH. auto.
Qed.

(** ** Order *)
Lemma bytes_leb_refl a : bytes_leb a a = true.
Proof. induction a as [|x a IH]; cbn; auto. rewrite N.ltb_irrefl, N.eqb_refl. exact IH. Qed.

Lemma bytes_leb_total a b : bytes_leb a b = true \/ bytes_leb b a = true.
Proof.
  revert b; induction a as [|x a IH]; destruct b as [|y b]; cbn; auto.
  destruct (N.ltb_spec (bN x) (bN y)); auto.
  destruct (N.ltb_spec (bN y) (bN x)); auto.
  assert (bN x = bN y) as E by lia. rewrite E, N.eqb_refl. auto.
Qed.

Lemma bytes_leb_antisym a b : bytes_leb a b = true -> bytes_leb b a = true -> a = b.
Proof.
  revert b; induction a as [|x a IH]; destruct b as [|y b]; cbn; auto; try discriminate.
  destruct (N.ltb_spec (bN x) (bN y)); destruct (N.ltb_spec (bN y) (bN x)); try lia.
  - destruct (N.eqb_spec (bN y) (bN x)); [lia|discriminate].
  - destruct (N.eqb_spec (bN x) (bN y)); [lia|discriminate].
  - destruct (N.eqb_spec (bN x) (bN y)) as [e|e]; [|discriminate].
    rewrite e, N.eqb_refl. intros H1 H2. f_equal; [apply bN_inj, e | apply IH; auto].
Qed.

Lemma bytes_leb_trans a b c : bytes_leb a b = true -> bytes_leb b c = true -> bytes_leb a c = true.
Proof.
  revert b c; induction a as [|x a IH]; destruct b as [|y b]; destruct c as [|z c]; cbn; auto; try discriminate.
  destruct (N.ltb_spec (bN x) (bN y)); destruct (N.ltb_spec (bN y) (bN z)); destruct (N.ltb_spec (bN x) (bN z)); auto; try lia.
  - destruct (N.eqb_spec (bN y) (bN z)); [lia|discriminate].
  - destruct (N.eqb_spec (bN x) (bN y)); [lia|discriminate].
  - destruct (N.eqb_spec (bN x) (bN y)) as [e1|]; [|discriminate].
    destruct (N.eqb_spec (bN y) (bN z)) as [e2|]; [|discriminate].
    rewrite e1, e2, N.eqb_refl. apply IH.
Qed.

(** ** Big-endian *)
Lemma be_val_snoc b x : be_val (b ++ [x]) = be_val b * 256 + bN x.
Proof. unfold be_val. rewrite fold_left_app. reflexivity. Qed.

Lemma be_val_app a b : be_val (a ++ b) = be_val a * 256 ^ blen b + be_val b.
Proof.
  induction b as [|x b IH] using rev_ind.
  - rewrite app_nil_r. unfold blen; cbn [length N.of_nat]. rewrite N.pow_0_r.
    change (be_val []) with 0. lia.
  - rewrite app_assoc, !be_val_snoc, IH. unfold blen. rewrite app_length. cbn [length].
    rewrite Nat2N.inj_add. cbn [N.of_nat Pos.of_succ_nat]. rewrite N.pow_add_r, N.pow_1_r. lia.
Qed.

Lemma be_val_cons x b : be_val (x :: b) = bN x * 256 ^ blen b + be_val b.
Proof. change (x :: b) with ([x] ++ b). rewrite be_val_app. reflexivity. Qed.

Lemma be_val_lt b : be_val b < 256 ^ blen b.
Proof.
  induction b as [|x b IH] using rev_ind; [reflexivity|].
  rewrite be_val_snoc. unfold blen in *. rewrite app_length. cbn [length].
  rewrite Nat2N.inj_add. cbn [N.of_nat Pos.of_succ_nat]. rewrite N.pow_add_r, N.pow_1_r.
  pose proof (bN_lt x). lia.
Qed.

Lemma le_digits_val fuel n : n < 2 ^ N.of_nat fuel -> be_val (rev (le_digits fuel n)) = n.
Proof.
  revert n; induction fuel as [|f IH]; intros n Hn; cbn [le_digits].
  - cbn in *. lia.
  - destruct (N.eqb_spec n 0) as [->|Hz]; [reflexivity|].
    cbn [rev]. rewrite be_val_snoc, IH, bN_byte_of; [lia|].
    rewrite Nat2N.inj_succ, N.pow_succ_r' in Hn.
    assert (n / 256 <= n / 2) by (apply N.div_le_compat_l; lia).
    assert (n / 2 < 2 ^ N.of_nat f) by (apply N.div_lt_upper_bound; lia). lia.
Qed.

Lemma pos_size_nat p : Pos.size_nat p = Pos.to_nat (Pos.size p).
Proof. induction p as [p IH|p IH|]; cbn; rewrite ?IH, ?Pos2Nat.inj_succ; reflexivity. Qed.

Lemma size_nat_bound n : n < 2 ^ N.of_nat (N.size_nat n).
Proof.
  destruct n as [|p]; [reflexivity|].
  replace (N.of_nat (N.size_nat (N.pos p))) with (N.size (N.pos p)); [apply N.size_gt|].
  cbn [N.size N.size_nat]. rewrite pos_size_nat. lia.
Qed.

Lemma be_val_min n : be_val (be_min n) = n.
Proof. apply le_digits_val, size_nat_bound. Qed.

Lemma le_digits_last fuel n : n < 2 ^ N.of_nat fuel -> n <> 0 ->
  exists l b, le_digits fuel n = l ++ [b] /\ bN b <> 0.
Proof.
  revert n; induction fuel as [|f IH]; intros n Hn Hz; cbn [le_digits].
  - cbn in *. lia.
  - destruct (N.eqb_spec n 0) as [->|_]; [congruence|].
    assert (n / 256 < 2 ^ N.of_nat f) as Hn'.
    { rewrite Nat2N.inj_succ, N.pow_succ_r' in Hn.
      assert (n / 256 <= n / 2) by (apply N.div_le_compat_l; lia).
      assert (n / 2 < 2 ^ N.of_nat f) by (apply N.div_lt_upper_bound; lia). lia. }
    destruct (N.eq_dec (n / 256) 0) as [E|E].
    + rewrite E. exists [], (byte_of n). rewrite bN_byte_of. split; [|lia].
      destruct f; reflexivity.
    + destruct (IH _ Hn' E) as (l & b & -> & Hb).
      exists (byte_of n :: l), b. auto.
Qed.

Lemma be_min_cons n : n <> 0 -> exists b l, be_min n = b :: l /\ bN b <> 0.
Proof.
  intros Hz. unfold be_min.
  destruct (le_digits_last _ n (size_nat_bound n) Hz) as (l & b & -> & Hb).
  rewrite rev_app_distr. exists b, (rev l). auto.
Qed.

Lemma be_min_0 : be_min 0 = [].
Proof. reflexivity. Qed.

Lemma be_min_len n k : n < 256 ^ k -> blen (be_min n) <= k.
Proof.
  intros H. destruct (N.eq_dec n 0) as [->|Hz]; [cbn; lia|].
  destruct (be_min_cons n Hz) as (b & l & E & Hb).
  pose proof (be_val_min n) as V. rewrite E, be_val_cons in V.
  rewrite E. unfold blen in *. cbn [length]. rewrite Nat2N.inj_succ.
  destruct (N.le_gt_cases (N.succ (N.of_nat (length l))) k) as [|G]; [assumption|exfalso].
  assert (256 ^ k <= 256 ^ N.of_nat (length l)) by (apply N.pow_le_mono_r; lia).
  nia.
Qed.

Lemma be_min_len_ge n k : 256 ^ k <= n -> k < blen (be_min n).
Proof.
  intros H. pose proof (be_val_lt (be_min n)) as L. rewrite be_val_min in L.
  apply (N.pow_lt_mono_r_iff 256); lia.
Qed.

Lemma be_min_u64 (x : u64) : (length (be_min x) <= 8)%nat.
Proof.
  pose proof (be_min_len x 8) as H. destruct x as [x Hx]; cbn [u64v] in *.
  apply N.ltb_lt in Hx. unfold two64 in Hx. specialize (H Hx). unfold blen in H. lia.
Qed.

Lemma be_val_repeat0 k : be_val (repeat x00 k) = 0.
Proof.
  induction k as [|k IH]; [reflexivity|]. cbn [repeat]. rewrite be_val_cons, IH.
  reflexivity.
Qed.

Lemma u64_to_be_bytes_len x : length (u64_to_be_bytes x) = 8%nat.
Proof.
  unfold u64_to_be_bytes. rewrite app_length, repeat_length. pose proof (be_min_u64 x). lia.
Qed.

Lemma u64_to_be_bytes_val x : be_val (u64_to_be_bytes x) = u64v x.
Proof.
  unfold u64_to_be_bytes. rewrite be_val_app, be_val_repeat0, be_val_min. lia.
Qed.

Lemma u64_to_be_bytes_inj x y : u64_to_be_bytes x = u64_to_be_bytes y -> x = y.
Proof.
  intros H. apply u64_eq. rewrite <- (u64_to_be_bytes_val x), <- (u64_to_be_bytes_val y), H.
  reflexivity.
Qed.

Lemma biguint_roundtrip n : biguint_from_bytes_be (biguint_to_bytes_be n) = n.
Proof.
  unfold biguint_from_bytes_be, biguint_to_bytes_be.
  destruct (N.eqb_spec n 0) as [->|]; [reflexivity|apply be_val_min].
Qed.

Lemma u64_lt (x : u64) : u64v x < two64.
Proof. apply N.ltb_lt, u64_ok. Qed.

Lemma to_u64_v (x : u64) : to_u64 (u64v x) = Some x.
Proof.
  unfold to_u64. destruct (bool_dec _ _) as [e|ne].
  - f_equal. apply u64_eq. reflexivity.
  - exfalso. apply ne, u64_ok.
Qed.

Lemma to_u64_Some n x : to_u64 n = Some x -> u64v x = n.
Proof. unfold to_u64. destruct (bool_dec _ _); intros [= <-]; reflexivity. Qed.

Lemma wrap64_small n : n < two64 -> u64v (wrap64 n) = n.
Proof. intros H. cbn. apply N.mod_small, H. Qed.

Lemma wrap64_v (x : u64) : wrap64 x = x.
Proof. apply u64_eq. cbn. apply N.mod_small, u64_lt. Qed.

Lemma fits_app_l a b : fits (a ++ b) -> fits a.
Proof. unfold fits, blen. rewrite app_length. lia. Qed.
Lemma fits_app_r a b : fits (a ++ b) -> fits b.
Proof. unfold fits, blen. rewrite app_length. lia. Qed.
