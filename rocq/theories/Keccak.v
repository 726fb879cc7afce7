(** * Keccak-256, the hash behind [Hash::digest]
    (protocol/src/types/primitive.rs:36-41, crate [hasher], feature hash-keccak).

    No theorem depends on this file: the theorems hold for every digest
    function.  It makes the examples concrete, and checks them against the
    test vectors in /repo. *)
From Verif Require Import Base BaseFacts Types.
Local Open Scope N_scope.

Definition rc : list N := [1; 32898; 9223372036854808714; 9223372039002292224; 32907; 2147483649; 9223372039002292353; 9223372036854808585; 138; 136; 2147516425; 2147483658; 2147516555; 9223372036854775947; 9223372036854808713; 9223372036854808579; 9223372036854808578; 9223372036854775936; 32778; 9223372039002259466; 9223372039002292353; 9223372036854808704; 2147483649; 9223372039002292232].
Definition rot_off : list N := [0; 1; 62; 28; 27; 36; 44; 6; 55; 20; 3; 10; 43; 25; 39; 41; 45; 15; 21; 8; 18; 2; 61; 56; 14].
Definition pi_src : list nat := [0; 6; 12; 18; 24; 3; 9; 10; 16; 22; 1; 7; 13; 19; 20; 4; 5; 11; 17; 23; 2; 8; 14; 15; 21]%nat.
Definition mask64 : N := 18446744073709551615.
Definition rotl (x n : N) : N := N.lor (N.land (N.shiftl x n) mask64) (N.shiftr x (64 - n)).
Definition lane (s : list N) (i : nat) : N := nth i s 0.

Definition theta (s : list N) : list N :=
  let c := map (fun x => N.lxor (N.lxor (N.lxor (N.lxor (lane s x) (lane s (x + 5))) (lane s (x + 10))) (lane s (x + 15))) (lane s (x + 20))) [0;1;2;3;4]%nat in
  let d := map (fun x => N.lxor (lane c (Nat.modulo (x + 4) 5)) (rotl (lane c (Nat.modulo (x + 1) 5)) 1)) [0;1;2;3;4]%nat in
  map (fun i => N.lxor (lane s i) (lane d (Nat.modulo i 5))) (seq 0 25).
Definition rho_pi (s : list N) : list N :=
  let r := zip_with rotl s rot_off in map (fun i => lane r i) pi_src.
Definition chi (s : list N) : list N :=
  map (fun i => let x := Nat.modulo i 5 in let y := (i - x)%nat in
    N.lxor (lane s i) (N.land (N.lxor mask64 (lane s (y + Nat.modulo (x + 1) 5))) (lane s (y + Nat.modulo (x + 2) 5)))) (seq 0 25).
Definition iota (c : N) (s : list N) : list N :=
  match s with l :: s' => N.lxor l c :: s' | [] => [] end.
Definition keccak_f (s : list N) : list N := fold_left (fun s c => iota c (chi (rho_pi (theta s)))) rc s.

Fixpoint le_val (b : bytes) : N := match b with [] => 0 | x :: b' => bN x + 256 * le_val b' end.
Fixpoint le_bytes (k : nat) (n : N) : bytes :=
  match k with O => [] | S k' => byte_of n :: le_bytes k' (n / 256) end.
Fixpoint lanes_of (k : nat) (b : bytes) : list N :=
  match k with O => [] | S k' => le_val (firstn 8 b) :: lanes_of k' (skipn 8 b) end.
Definition absorb (s : list N) (block : bytes) : list N :=
  keccak_f (zip_with N.lxor s (lanes_of 17 block ++ repeat 0 8)).

(** 0x01 .. 0x80 padding to a multiple of 136 bytes. *)
Definition pad (b : bytes) : bytes :=
  let k := (136 - Nat.modulo (length b) 136)%nat in
  if Nat.eqb k 1 then b ++ [x81] else b ++ x01 :: repeat x00 (k - 2) ++ [x80].
Fixpoint absorb_all (fuel : nat) (s : list N) (b : bytes) : list N :=
  match fuel with
  | O => s
  | S f => match b with [] => s | _ => absorb_all f (absorb s (firstn 136 b)) (skipn 136 b) end
  end.
Definition keccak_bytes (b : bytes) : bytes :=
  let p := pad b in
  let s := absorb_all (S (length p / 136)) (repeat 0 25) p in
  le_bytes 8 (lane s 0) ++ le_bytes 8 (lane s 1) ++ le_bytes 8 (lane s 2) ++ le_bytes 8 (lane s 3).

Lemma le_bytes_length k n : length (le_bytes k n) = k.
Proof. revert n. induction k; intros; cbn; auto. Qed.
Lemma keccak_length b : (length (keccak_bytes b) =? 32)%nat = true.
Proof. unfold keccak_bytes. cbn zeta. rewrite !app_length, !le_bytes_length. reflexivity. Qed.
Definition keccak (b : bytes) : hash := Sized (n := 32) (keccak_bytes b) (keccak_length b).

(** A cheap stand-in for the digest, for the longer example histories only: the
    theorems hold for every [digest], and Keccak-256 is slow to evaluate when
    the compiled files are checked again. *)
Definition mix (b : bytes) : N := fold_left (fun acc x => N.land (acc * 257 + bN x + 1) mask64) b 7.
Definition mixd_bytes (b : bytes) : bytes := let h := mix b in repeat x00 16 ++ le_bytes 8 h ++ le_bytes 8 h.
Lemma mixd_length b : (length (mixd_bytes b) =? 32)%nat = true.
Proof. unfold mixd_bytes. cbn zeta. rewrite !app_length, !le_bytes_length, repeat_length. reflexivity. Qed.
Definition mixd (b : bytes) : hash := Sized (n := 32) (mixd_bytes b) (mixd_length b).
