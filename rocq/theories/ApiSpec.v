(** * ApiSpec: what the strings of an API request stand for.

    Strings are lists of Unicode code points. *)
From Verif Require Import Base Types.
Local Open Scope N_scope.

(** The character [c] is the hexadecimal digit of value [v], either case. *)
Definition digit (c v : N) : Prop :=
  v < 16 /\ ((v < 10 /\ c = 48 + v) \/ (10 <= v /\ (c = 97 + (v - 10) \/ c = 65 + (v - 10)))).

(** Two digits per byte. *)
Inductive spell : list N -> bytes -> Prop :=
| spell_nil : spell [] []
| spell_byte h l a b t r : digit h a -> digit l b -> spell t r -> spell (h :: l :: t) (byte_of (a * 16 + b) :: r).

(** An optional "0x" may precede anything. *)
Definition unprefixed (t body : list N) : Prop := t = body \/ t = 48 :: 120 :: body.

(** [t] is a way of writing the bytes [b]. *)
Definition spells (t : list N) (b : bytes) : Prop := exists body, unprefixed t body /\ spell body b.

(** [t] is a way of writing the number [n]: at least one digit, any number of
    leading zeros, optionally a '+' in front. *)
Fixpoint number_of (vs : list N) (acc : N) : N :=
  match vs with [] => acc | v :: r => number_of r (16 * acc + v) end.
Definition spells_number (t : list N) (n : N) : Prop :=
  exists body ds vs, unprefixed t body /\ (body = ds \/ body = 43 :: ds) /\ ds <> [] /\
    Forall2 digit ds vs /\ n = number_of vs 0.

(** A Rust string (code points below 0x110000) without U+FB00, the ligature
    that capitalises to "FF". *)
Definition plain (t : list N) : Prop := Forall (fun c => c < 1114112 /\ c <> 64256) t.

(** [t] is a way of writing the amount [n]: an even number of digits, possibly
    none. *)
Definition spells_amount (t : list N) (n : N) : Prop :=
  exists body vs, unprefixed t body /\ Nat.Even (length body) /\ Forall2 digit body vs /\ n = number_of vs 0.
