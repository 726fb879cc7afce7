(** * Rlp: the parts of the [rlp] crate (0.4) used by protocol/src/fixed_codec
    and core/consensus/src/fixed_types.rs.

    The crate is a dependency and not in /repo; this file states the behaviour
    that /repo's codecs rely on.  Lengths are [N] (a [usize] in Rust; all
    buffers have fewer than 2^64 bytes).  The decoder's offset cache (a pure
    optimisation for inputs that are exactly one RLP item) is not modelled. *)
From Verif Require Import Base.
Local Open Scope N_scope.

(** [rlp::DecoderError]; [RlpCustom] drops the static message. *)
Inductive rlp_err :=
| RlpIsTooBig | RlpIsTooShort | RlpExpectedToBeList | RlpExpectedToBeData
| RlpIncorrectListLen | RlpDataLenWithZeroPrefix | RlpListLenWithZeroPrefix
| RlpInvalidIndirection | RlpInconsistentLengthAndData | RlpInvalidLength
| RlpCustom.

Notation rlp_res := (res rlp_err).

(** ** Encoding *)

(** Length prefix: [BasicEncoder::encode_value] / [insert_list_payload]. *)
Definition enc_len (short long : N) (n : N) : bytes :=
  if n <=? 55 then [byte_of (short + n)]
  else let d := be_min n in byte_of (long + blen d) :: d.

(** [BasicEncoder::encode_value] *)
Definition enc_str (b : bytes) : bytes :=
  match b with
  | [] => [x80]
  | [x] => if bN x <? 128 then [x] else enc_len 128 183 (blen b) ++ b
  | _ => enc_len 128 183 (blen b) ++ b
  end.

(** [RlpStream::begin_list(n)] followed by the appended items. *)
Definition enc_list (items : list bytes) : bytes :=
  let p := concat items in enc_len 192 247 (blen p) ++ p.

(** [impl Encodable for u64 / u8]: big-endian without leading zeros. *)
Definition enc_u64 (n : u64) : bytes := enc_str (be_min n).
Definition enc_u8 (b : byte) : bytes := enc_str (be_min (bN b)).

(** ** Decoding *)

Definition slice (b : bytes) (from len : N) : bytes :=
  firstn (N.to_nat len) (skipn (N.to_nat from) b).

(** [calculate_payload_info] (including [decode_usize]). *)
Definition calc_payload_info (b : bytes) (len_of_len : N) : rlp_res (N * N) :=
  match b with
  | _ :: b1 :: _ =>
      if bN b1 =? 0 then Err RlpDataLenWithZeroPrefix
      else if blen b <? 1 + len_of_len then Err RlpIsTooShort
      else let v := be_val (slice b 1 len_of_len) in
           if v <=? 55 then Err RlpInvalidIndirection else Ok (1 + len_of_len, v)
  | _ => Err RlpIsTooShort
  end.

(** [PayloadInfo::from]: header length and value length. *)
Definition payload_info_from (b : bytes) : rlp_res (N * N) :=
  match b with
  | [] => Err RlpIsTooShort
  | x :: _ =>
      let l := bN x in
      if l <=? 127 then Ok (0, 1)
      else if l <=? 183 then Ok (1, l - 128)
      else if l <=? 191 then calc_payload_info b (l - 183)
      else if l <=? 247 then Ok (1, l - 192)
      else calc_payload_info b (l - 247)
  end.

(** [BasicDecoder::payload_info] *)
Definition payload_info (b : bytes) : rlp_res (N * N) :=
  let? p := payload_info_from b in
  if fst p + snd p <=? blen b then Ok p else Err RlpIsTooShort.

(** [Rlp::is_list] *)
Definition is_list (b : bytes) : bool :=
  match b with [] => false | x :: _ => 192 <=? bN x end.

(** [Rlp::size] *)
Definition rlp_size (b : bytes) : N :=
  if is_list b then 0
  else match payload_info b with Ok (_, v) => v | _ => 0 end.

(** [Rlp::data]: the payload, of a list as well as of a string. *)
Definition rlp_data (b : bytes) : rlp_res bytes :=
  let? p := payload_info b in Ok (slice b (fst p) (snd p)).

(** [Rlp::consume_items] *)
Fixpoint skip_items (n : nat) (b : bytes) : rlp_res bytes :=
  match n with
  | O => Ok b
  | S n' =>
      let? p := payload_info b in
      skip_items n' (skipn (N.to_nat (fst p + snd p)) b)
  end.

(** The first item of a buffer. *)
Definition first_item (b : bytes) : rlp_res bytes :=
  let? p := payload_info b in Ok (firstn (N.to_nat (fst p + snd p)) b).

(** [Rlp::at] *)
Definition rlp_at (b : bytes) (i : nat) : rlp_res bytes :=
  if is_list b then
    let? p := payload_info b in
    let? r := skip_items i (slice b (fst p) (snd p)) in
    first_item r
  else Err RlpExpectedToBeList.

(** [Rlp::iter]: items until the first [at] that fails.  Fuel: every item has
    at least one byte. *)
Fixpoint walk_items (fuel : nat) (b : bytes) : list bytes :=
  match fuel with
  | O => []
  | S f =>
      match payload_info b with
      | Ok (h, v) => firstn (N.to_nat (h + v)) b :: walk_items f (skipn (N.to_nat (h + v)) b)
      | _ => []
      end
  end.

Definition rlp_items (b : bytes) : list bytes :=
  if is_list b then
    match rlp_data b with Ok p => walk_items (length p) p | _ => [] end
  else [].

(** [BasicDecoder::decode_value] *)
Definition decode_value {A} (f : bytes -> rlp_res A) (b : bytes) : rlp_res A :=
  match b with
  | [] => Err RlpIsTooShort
  | x :: _ =>
      let l := bN x in
      if l <=? 127 then f [x]
      else if l <=? 183 then
        if blen b <? 1 + (l - 128) then Err RlpInconsistentLengthAndData
        else let d := slice b 1 (l - 128) in
             match d with
             | y :: _ => if (l =? 129) && (bN y <? 128) then Err RlpInvalidIndirection else f d
             | [] => f d
             end
      else if l <=? 191 then
        let lol := l - 183 in
        if blen b <? 1 + lol then Err RlpInconsistentLengthAndData
        else
          match slice b 1 lol with
          | [] => Err RlpInvalidIndirection
          | (y :: _) as s =>
              if bN y =? 0 then Err RlpInvalidIndirection
              else let len := be_val s in
                   if blen b <? 1 + lol + len then Err RlpInconsistentLengthAndData
                   else f (slice b (1 + lol) len)
          end
      else Err RlpExpectedToBeData
  end.

(** [impl Decodable for u8] *)
Definition u8_of_bytes (b : bytes) : rlp_res byte :=
  match b with
  | [] => Ok x00
  | [x] => if bN x =? 0 then Err RlpInvalidIndirection else Ok x
  | _ => Err RlpIsTooBig
  end.
Definition dec_u8 : bytes -> rlp_res byte := decode_value u8_of_bytes.

(** [impl Decodable for u64] *)
Definition u64_of_bytes (b : bytes) : rlp_res u64 :=
  match b with
  | [] => Ok (wrap64 0)
  | [x] => if bN x =? 0 then Err RlpInvalidIndirection else Ok (wrap64 (bN x))
  | x :: _ =>
      if (length b <=? 8)%nat then
        if bN x =? 0 then Err RlpInvalidIndirection else Ok (wrap64 (be_val b))
      else Err RlpIsTooBig
  end.
Definition dec_u64 : bytes -> rlp_res u64 := decode_value u64_of_bytes.

(** [impl Decodable for String] *)
Definition dec_string : bytes -> rlp_res rstring :=
  decode_value (fun b => ok_or (from_utf8 b) RlpExpectedToBeData).

(** Fixed-size arrays (ethbloom's [Bloom]). *)
Definition sized_of_bytes (n : nat) (b : bytes) : rlp_res (sized n) :=
  match to_sized n b with
  | Some a => Ok a
  | None => Err (if (length b <? n)%nat then RlpIsTooShort else RlpIsTooBig)
  end.
Definition dec_sized (n : nat) : bytes -> rlp_res (sized n) := decode_value (sized_of_bytes n).

(** [rlp::decode_list]: [as_list().expect(..)]: an item that does not decode
    is a panic. *)
Fixpoint dec_all {A} (f : bytes -> rlp_res A) (l : list bytes) : rlp_res (list A) :=
  match l with
  | [] => Ok []
  | e :: r => let? a := f e in let? t := dec_all f r in Ok (a :: t)
  end.

Definition dec_list {A} (f : bytes -> rlp_res A) (b : bytes) : rlp_res (list A) :=
  match dec_all f (rlp_items b) with Ok l => Ok l | _ => Panic end.

(** [if !r.is_list() && r.size() != n { return Err(RlpIncorrectListLen) }] *)
Definition check_list_len (b : bytes) (n : N) : rlp_res unit :=
  if negb (is_list b) && negb (rlp_size b =? n) then Err RlpIncorrectListLen else Ok tt.

(** [r.at(i)?.data()?], [r.at(i)?.as_val()?], [rlp::decode(r.at(i)?.as_raw())?] *)
Definition at_data (b : bytes) (i : nat) : rlp_res bytes :=
  let? e := rlp_at b i in rlp_data e.
Definition at_dec {A} (f : bytes -> rlp_res A) (b : bytes) (i : nat) : rlp_res A :=
  let? e := rlp_at b i in f e.
