(** * bincode 1.x with its default configuration (external crate): integers
    are fixed-width little endian, sequences and byte strings are preceded by
    their length as [u64], structs have no overhead, an enum starts with the
    variant number as [u32]; [deserialize] ignores trailing bytes. *)
From Verif Require Import Base BaseFacts Types Rlp RlpFacts.
Local Open Scope N_scope.

Fixpoint le (k : nat) (n : N) : bytes :=
  match k with O => [] | S k => byte_of (n mod 256) :: le k (n / 256) end.
Fixpoint un_le (b : bytes) : N :=
  match b with [] => 0 | x :: r => bN x + 256 * un_le r end.

(** A decoder: the value and the rest, or an error. *)
Definition bdec (A : Type) := bytes -> option (A * bytes).

(** Exactly [n] bytes; [n] may be as large as 2^64 - 1. *)
Definition take_n (n : N) : bdec bytes := fun b =>
  if n <=? blen b then Some (firstn (N.to_nat n) b, skipn (N.to_nat n) b) else None.
Definition dec_le (k : nat) : bdec N := fun b =>
  match take_n (N.of_nat k) b with Some (x, r) => Some (un_le x, r) | None => None end.

Definition benc_u64 (n : u64) : bytes := le 8 n.
Definition bdec_u64 : bdec u64 := fun b =>
  match dec_le 8 b with Some (n, r) => Some (wrap64 n, r) | None => None end.

Definition benc_bytes (b : bytes) : bytes := le 8 (blen b) ++ b.
Definition bdec_bytes : bdec bytes := fun b =>
  match dec_le 8 b with Some (n, r) => take_n n r | None => None end.

(** [n] elements in a row. *)
Fixpoint bdec_many {A} (d : bdec A) (n : nat) : bdec (list A) := fun b =>
  match n with
  | O => Some ([], b)
  | S n => match d b with
           | Some (x, r) => match bdec_many d n r with Some (xs, r') => Some (x :: xs, r') | None => None end
           | None => None
           end
  end.
(** Every element takes at least 8 bytes in the messages below, so a length
    larger than what remains fails; the guard keeps the count small. *)
Definition benc_vec {A} (e : A -> bytes) (l : list A) : bytes := le 8 (N.of_nat (length l)) ++ concat (map e l).
Definition bdec_vec {A} (d : bdec A) : bdec (list A) := fun b =>
  match dec_le 8 b with
  | Some (n, r) => if n <=? blen r then bdec_many d (N.to_nat n) r else None
  | None => None
  end.

(** ** Facts *)
Lemma le_length k n : length (le k n) = k.
Proof. revert n; induction k; intros; cbn [le length]; auto. Qed.
Lemma un_le_le k n : n < 256 ^ N.of_nat k -> un_le (le k n) = n.
Proof.
  revert n; induction k as [|k IH]; intros n Hn.
  - cbn in *. lia.
  - cbn [le un_le]. rewrite bN_byte_of_small by (apply N.mod_lt; lia).
    rewrite IH.
    + pose proof (N.div_mod n 256). lia.
    + apply N.div_lt_upper_bound; [lia|]. rewrite Nat2N.inj_succ, N.pow_succ_r' in Hn. exact Hn.
Qed.
Lemma take_n_app n a r : blen a = n -> take_n n (a ++ r) = Some (a, r).
Proof.
  intros <-. unfold take_n. rewrite blen_app.
  destruct (N.leb_spec (blen a) (blen a + blen r)) as [_|H]; [|lia].
  unfold blen. rewrite Nat2N.id, take_app, drop_app. reflexivity.
Qed.
Lemma dec_le_app k n r : n < 256 ^ N.of_nat k -> dec_le k (le k n ++ r) = Some (n, r).
Proof.
  intros H. unfold dec_le. rewrite take_n_app by (unfold blen; rewrite le_length; reflexivity).
  rewrite un_le_le by exact H. reflexivity.
Qed.
Lemma bdec_u64_app n r : bdec_u64 (benc_u64 n ++ r) = Some (n, r).
Proof.
  unfold bdec_u64, benc_u64. rewrite dec_le_app by apply u64_lt. rewrite wrap64_v. reflexivity.
Qed.
Lemma bdec_bytes_app b r : fits b -> bdec_bytes (benc_bytes b ++ r) = Some (b, r).
Proof.
  intros H. unfold bdec_bytes, benc_bytes. rewrite <- app_assoc, dec_le_app by exact H. apply take_n_app. reflexivity.
Qed.
