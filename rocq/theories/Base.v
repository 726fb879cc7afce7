(** * Base: byte strings, machine integers, sized arrays, UTF-8, results.

    Everything in this file models Rust primitive types used throughout
    /repo.  It has no counterpart file in /repo. *)
From Coq Require Export NArith ZArith Lia List Bool.
From Coq Require Export Strings.Byte.
From Coq Require Import ZifyBool ZifyNat ZifyN.
From stdpp Require Export base decidable countable list fin_maps gmap.
Export ListNotations.
Local Open Scope N_scope.

(** ** Results.  [Panic] is a Rust panic: an explicit error value. *)
Inductive res (E A : Type) : Type :=
| Ok (a : A)
| Err (e : E)
| Panic.
Arguments Ok {E A} a.
Arguments Err {E A} e.
Arguments Panic {E A}.

Definition rbind {E A B} (r : res E A) (k : A -> res E B) : res E B :=
  match r with Ok a => k a | Err e => Err e | Panic => Panic end.

Definition rmap {E A B} (f : A -> B) (r : res E A) : res E B :=
  rbind r (fun a => Ok (f a)).

Definition map_err {E F A} (f : E -> F) (r : res E A) : res F A :=
  match r with Ok a => Ok a | Err e => Err (f e) | Panic => Panic end.

(** Rust's [Option::ok_or]. *)
Definition ok_or {E A} (o : option A) (e : E) : res E A :=
  match o with Some a => Ok a | None => Err e end.

Declare Scope res_scope.
Delimit Scope res_scope with res.
Notation "'let?' x ':=' r 'in' k" := (rbind r (fun x => k))
  (at level 200, x pattern, r at level 100, k at level 200, right associativity).
Open Scope res_scope.

Definition is_ok {E A} (r : res E A) : bool :=
  match r with Ok _ => true | _ => false end.
Definition is_panic {E A} (r : res E A) : bool :=
  match r with Panic => true | _ => false end.

(** ** Bytes *)
Definition bytes := list byte.

Definition bN (b : byte) : N := Byte.to_N b.

(** [n as u8]: truncation to 8 bits. *)
Definition byte_of (n : N) : byte :=
  match Byte.of_N (n mod 256) with Some b => b | None => x00 end.

Definition beqb (a b : byte) : bool := Byte.eqb a b.

Global Instance byte_eq_dec : EqDecision byte := Byte.byte_eq_dec.

Global Program Instance byte_countable : Countable byte :=
  inj_countable bN (fun n => Byte.of_N n) _.
Next Obligation. intros x. apply Byte.of_to_N. Qed.

Fixpoint bytes_eqb (a b : bytes) : bool :=
  match a, b with
  | [], [] => true
  | x :: a', y :: b' => beqb x y && bytes_eqb a' b'
  | _, _ => false
  end.

(** Lexicographic order on byte strings: Rust's [Ord] on [[u8; N]]. *)
Fixpoint bytes_leb (a b : bytes) : bool :=
  match a, b with
  | [], _ => true
  | _ :: _, [] => false
  | x :: a', y :: b' =>
      if bN x <? bN y then true
      else if bN x =? bN y then bytes_leb a' b' else false
  end.

Definition blen (b : bytes) : N := N.of_nat (length b).

(** The length of any in-memory buffer is a [usize] (64 bit). *)
Definition two64 : N := 18446744073709551616.
Definition fits (b : bytes) : Prop := blen b < two64.

(** ** Big-endian integers *)
Fixpoint le_digits (fuel : nat) (n : N) : bytes :=
  match fuel with
  | O => []
  | S f => if n =? 0 then [] else byte_of n :: le_digits f (n / 256)
  end.

(** Minimal big-endian digits, [[]] for zero. *)
Definition be_min (n : N) : bytes := rev (le_digits (N.size_nat n) n).

(** Big-endian value of a byte string. *)
Definition be_val (b : bytes) : N := fold_left (fun acc x => acc * 256 + bN x) b 0.

(** [num_bigint::BigUint::to_bytes_be]: minimal, but zero is one zero byte. *)
Definition biguint_to_bytes_be (n : N) : bytes :=
  if n =? 0 then [x00] else be_min n.

(** [num_bigint::BigUint::from_bytes_be]. *)
Definition biguint_from_bytes_be (b : bytes) : N := be_val b.

(** ** [u64] *)
Record u64 := U64 { u64v : N; u64_ok : (u64v <? two64) = true }.
Coercion u64v : u64 >-> N.

Lemma u64_eq (a b : u64) : u64v a = u64v b -> a = b.
Proof.
  destruct a as [a Ha], b as [b Hb]; cbn; intros ->.
  f_equal. apply Eqdep_dec.UIP_dec. apply bool_dec.
Qed.

Global Instance u64_eq_dec : EqDecision u64.
Proof.
  intros a b. destruct (N.eq_dec (u64v a) (u64v b)) as [e|n].
  - left. apply u64_eq, e.
  - right. intros ->. apply n. reflexivity.
Defined.

(** Release-mode [u64] arithmetic wraps (Cargo.toml sets no overflow-checks). *)
Lemma wrap_ok (n : N) : (n mod two64 <? two64) = true.
Proof. apply N.ltb_lt, N.mod_lt. discriminate. Qed.
Definition wrap64 (n : N) : u64 := U64 (n mod two64) (wrap_ok n).

Definition to_u64 (n : N) : option u64 :=
  match Bool.bool_dec (n <? two64) true with
  | left e => Some (U64 n e)
  | right _ => None
  end.

(** [u64::to_be_bytes]: exactly eight bytes. *)
Definition u64_to_be_bytes (x : u64) : bytes :=
  let d := be_min x in repeat x00 (8 - length d) ++ d.

(** ** Sized byte arrays [[u8; n]] *)
Record sized (n : nat) := Sized { sbytes : bytes; s_ok : (length sbytes =? n)%nat = true }.
Arguments Sized {n} sbytes s_ok.
Arguments sbytes {n} s.
Arguments s_ok {n} s.

Lemma sized_eq {n} (a b : sized n) : sbytes a = sbytes b -> a = b.
Proof.
  destruct a as [a Ha], b as [b Hb]; cbn; intros ->.
  f_equal. apply Eqdep_dec.UIP_dec. apply bool_dec.
Qed.

Lemma sized_len {n} (a : sized n) : length (sbytes a) = n.
Proof. apply Nat.eqb_eq, s_ok. Qed.

Definition to_sized (n : nat) (b : bytes) : option (sized n) :=
  match Bool.bool_dec (length b =? n)%nat true with
  | left e => Some (Sized b e)
  | right _ => None
  end.

Lemma to_sized_bytes {n} (a : sized n) : to_sized n (sbytes a) = Some a.
Proof.
  unfold to_sized. destruct (bool_dec _ _) as [e|ne].
  - f_equal. apply sized_eq. reflexivity.
  - exfalso. apply ne, s_ok.
Qed.

Lemma to_sized_Some {n} b (a : sized n) : to_sized n b = Some a -> sbytes a = b.
Proof. unfold to_sized. destruct (bool_dec _ _); intros [= <-]; reflexivity. Qed.

Lemma to_sized_None n b : to_sized n b = None <-> length b <> n.
Proof.
  unfold to_sized. destruct (bool_dec _ _) as [e|ne]; split; intros H; try discriminate; try reflexivity.
  - exfalso. apply H, Nat.eqb_eq, e.
  - intros E. apply ne, Nat.eqb_eq, E.
Qed.

Lemma to_sized_len n b a : to_sized n b = Some a -> length b = n.
Proof. intros H. rewrite <- (to_sized_Some _ _ H). apply sized_len. Qed.

Global Instance sized_eq_dec n : EqDecision (sized n).
Proof.
  intros a b. destruct (decide (sbytes a = sbytes b)) as [e|ne].
  - left. apply sized_eq, e.
  - right. intros ->. apply ne. reflexivity.
Defined.

Global Program Instance sized_countable n : Countable (sized n) :=
  inj_countable sbytes (to_sized n) _.
Next Obligation. intros n x. apply to_sized_bytes. Qed.

(** ** Rust [String]: valid UTF-8.  [std::str::from_utf8] as in RFC 3629
    (no overlong forms, no surrogates, at most U+10FFFF). *)
Definition in_rng (b : byte) (lo hi : N) : bool := (lo <=? bN b) && (bN b <=? hi).

Fixpoint utf8_valid (fuel : nat) (b : bytes) : bool :=
  match fuel with
  | O => match b with [] => true | _ => false end
  | S f =>
    match b with
    | [] => true
    | b0 :: r0 =>
      if bN b0 <? 128 then utf8_valid f r0 else
      match r0 with
      | [] => false
      | b1 :: r1 =>
        if in_rng b0 194 223 then in_rng b1 128 191 && utf8_valid f r1 else
        match r1 with
        | [] => false
        | b2 :: r2 =>
          if in_rng b0 224 239 then
            (if bN b0 =? 224 then in_rng b1 160 191
             else if bN b0 =? 237 then in_rng b1 128 159
             else in_rng b1 128 191)
            && in_rng b2 128 191 && utf8_valid f r2
          else
          match r2 with
          | [] => false
          | b3 :: r3 =>
            if in_rng b0 240 244 then
              (if bN b0 =? 240 then in_rng b1 144 191
               else if bN b0 =? 244 then in_rng b1 128 143
               else in_rng b1 128 191)
              && in_rng b2 128 191 && in_rng b3 128 191 && utf8_valid f r3
            else false
          end
        end
      end
    end
  end.

Definition utf8 (b : bytes) : bool := utf8_valid (length b) b.

Record rstring := RString { rs : bytes; rs_ok : utf8 rs = true }.

Lemma rstring_eq (a b : rstring) : rs a = rs b -> a = b.
Proof.
  destruct a as [a Ha], b as [b Hb]; cbn; intros ->.
  f_equal. apply Eqdep_dec.UIP_dec. apply bool_dec.
Qed.

(** [String::from_utf8] *)
Definition from_utf8 (b : bytes) : option rstring :=
  match Bool.bool_dec (utf8 b) true with
  | left e => Some (RString b e)
  | right _ => None
  end.

Lemma from_utf8_rs (s : rstring) : from_utf8 (rs s) = Some s.
Proof.
  unfold from_utf8. destruct (bool_dec _ _) as [e|ne].
  - f_equal. apply rstring_eq. reflexivity.
  - exfalso. apply ne, rs_ok.
Qed.

Lemma from_utf8_Some b s : from_utf8 b = Some s -> rs s = b.
Proof. unfold from_utf8. destruct (bool_dec _ _); intros [= <-]; reflexivity. Qed.

Global Instance rstring_eq_dec : EqDecision rstring.
Proof.
  intros a b. destruct (decide (rs a = rs b)) as [e|ne].
  - left. apply rstring_eq, e.
  - right. intros ->. apply ne. reflexivity.
Defined.

(** ASCII literals. *)
Definition ascii (s : String.string) : bytes := String.list_byte_of_string s.
