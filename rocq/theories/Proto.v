(** * Proto: the protobuf wire format as implemented by the [prost] 0.5 crate
    (dependency of /repo/protocol, Cargo.toml of protocol).  Used by every
    [#[derive(Message)]] struct of protocol/src/codec/*.rs.

    The crate is not part of /repo: this file is the assumed semantics of
    [prost::Message::{encode, decode}].  Simplifications: all
    [DecodeError]s are one error; parsing is split in two passes (cut the
    buffer into tagged wire values, then merge them one by one), which can
    only change WHICH decode error is reported; groups (wire types 3 and 4)
    are rejected. *)
From Verif Require Import Base.
Local Open Scope N_scope.

(** ** [u32] *)
Definition two32 : N := 4294967296.
Record u32 := U32 { u32v : N; u32_ok : (u32v <? two32) = true }.
Lemma u32_eq (a b : u32) : u32v a = u32v b -> a = b.
Proof.
  destruct a as [a Ha], b as [b Hb]; cbn; intros ->.
  f_equal. apply Eqdep_dec.UIP_dec. apply bool_dec.
Qed.
Lemma wrap32_ok (n : N) : (n mod two32 <? two32) = true.
Proof. apply N.ltb_lt, N.mod_lt. discriminate. Qed.
(** [n as u32] *)
Definition wrap32 (n : N) : u32 := U32 (n mod two32) (wrap32_ok n).

(** ** Varints *)
(** [encode_varint]; a [u64] needs at most ten bytes. *)
Fixpoint varint_f (fuel : nat) (n : N) : bytes :=
  match fuel with
  | O => []
  | S f => if n <? 128 then [byte_of n] else byte_of (n mod 128 + 128) :: varint_f f (n / 128)
  end.
Definition varint (n : N) : bytes := varint_f 10 n.

(** [decode_varint]: at most ten bytes, the value truncated to 64 bits. *)
Fixpoint dec_varint_f (fuel : nat) (b : bytes) : option (N * bytes) :=
  match fuel, b with
  | O, _ | _, [] => None
  | S f, x :: r =>
      if bN x <? 128 then Some (bN x, r)
      else match dec_varint_f f r with
           | Some (v, r') => Some (bN x mod 128 + 128 * v, r')
           | None => None
           end
  end.
Definition dec_varint (b : bytes) : option (N * bytes) :=
  match dec_varint_f 10 b with Some (v, r) => Some (v mod two64, r) | None => None end.

(** ** Tagged wire values *)
Inductive wv := WVar (n : N) | W64 (b : bytes) | WLen (b : bytes) | W32 (b : bytes).
Definition wfield := (N * wv)%type.

Definition wire_type (w : wv) : N :=
  match w with WVar _ => 0 | W64 _ => 1 | WLen _ => 2 | W32 _ => 5 end.
Definition wire_payload (w : wv) : bytes :=
  match w with
  | WVar n => varint n
  | W64 b | W32 b => b
  | WLen b => varint (blen b) ++ b
  end.
(** [encode_key] then the payload. *)
Definition ser_field (f : wfield) : bytes :=
  varint (fst f * 8 + wire_type (snd f)) ++ wire_payload (snd f).
Definition ser (l : list wfield) : bytes := concat (map ser_field l).

(** [buf.take(n)]: error if fewer than [n] bytes remain. *)
Definition split_at (n : N) (b : bytes) : option (bytes * bytes) :=
  if n <=? blen b then Some (firstn (N.to_nat n) b, skipn (N.to_nat n) b) else None.

(** One key and its value. *)
Definition parse1 (b : bytes) : option (wfield * bytes) :=
  match dec_varint b with
  | None => None
  | Some (key, r) =>
    if two32 <=? key then None else
    let tag := key / 8 in
    let wt := key mod 8 in
    if tag =? 0 then None else
    if wt =? 0 then
      match dec_varint r with Some (v, r') => Some ((tag, WVar v), r') | None => None end
    else if wt =? 1 then
      match split_at 8 r with Some (p, r') => Some ((tag, W64 p), r') | None => None end
    else if wt =? 2 then
      match dec_varint r with
      | Some (len, r') =>
          match split_at len r' with Some (p, r'') => Some ((tag, WLen p), r'') | None => None end
      | None => None
      end
    else if wt =? 5 then
      match split_at 4 r with Some (p, r') => Some ((tag, W32 p), r') | None => None end
    else None
  end.

(** The loop [while buf.has_remaining()] of [Message::merge]; every field
    takes at least one byte, so [length b] turns are enough. *)
Fixpoint parse_f (fuel : nat) (b : bytes) : option (list wfield) :=
  match b with
  | [] => Some []
  | _ =>
    match fuel with
    | O => None
    | S f =>
      match parse1 b with
      | Some (w, r) => match parse_f f r with Some l => Some (w :: l) | None => None end
      | None => None
      end
    end
  end.
Definition parse (b : bytes) : option (list wfield) := parse_f (length b) b.

(** ** Field and message descriptions.  [pc_out] is [encode_raw], [pc_in] is
    [merge_field]. *)
Record pcodec (V : Type) := PCodec {
  pc_tags : list N;
  pc_default : V;
  pc_out : V -> list wfield;
  pc_in : N -> wv -> V -> option V }.
Arguments PCodec {V}.
Arguments pc_tags {V}.
Arguments pc_default {V}.
Arguments pc_out {V}.
Arguments pc_in {V}.

Definition has_tag (t : N) (l : list N) : bool := existsb (N.eqb t) l.

Fixpoint merge_all {V} (c : pcodec V) (l : list wfield) (v : V) : option V :=
  match l with
  | [] => Some v
  | (t, w) :: r => match pc_in c t w v with Some v' => merge_all c r v' | None => None end
  end.

(** [Message::encode], [Message::decode], [Message::merge]. *)
Definition pencode {V} (c : pcodec V) (v : V) : bytes := ser (pc_out c v).
Definition pmerge {V} (c : pcodec V) (b : bytes) (v : V) : option V :=
  match parse b with Some l => merge_all c l v | None => None end.
Definition pdecode {V} (c : pcodec V) (b : bytes) : option V := pmerge c b (pc_default c).

(** No more fields: unknown tags are skipped. *)
Definition pnil : pcodec unit := PCodec [] tt (fun _ => []) (fun _ _ v => Some v).

(** One field, then the others. *)
Definition pcons {A B} (f : pcodec A) (m : pcodec B) : pcodec (A * B) :=
  PCodec (pc_tags f ++ pc_tags m) (pc_default f, pc_default m)
    (fun v => pc_out f (fst v) ++ pc_out m (snd v))
    (fun t w v =>
       if has_tag t (pc_tags f)
       then match pc_in f t w (fst v) with Some a => Some (a, snd v) | None => None end
       else match pc_in m t w (snd v) with Some b => Some (fst v, b) | None => None end).

(** [#[prost(bytes, tag = "t")] x: Vec<u8>] *)
Definition p_bytes (t : N) : pcodec bytes :=
  PCodec [t] [] (fun v => match v with [] => [] | _ => [(t, WLen v)] end)
    (fun _ w _ => match w with WLen b => Some b | _ => None end).

Definition empty_rstring : rstring := RString [] eq_refl.

(** [#[prost(string, tag = "t")] x: String] *)
Definition p_string (t : N) : pcodec rstring :=
  PCodec [t] empty_rstring (fun v => match rs v with [] => [] | _ => [(t, WLen (rs v))] end)
    (fun _ w _ => match w with WLen b => from_utf8 b | _ => None end).

(** [#[prost(uint64, tag = "t")] x: u64] *)
Definition p_u64 (t : N) : pcodec u64 :=
  PCodec [t] (wrap64 0) (fun v => if u64v v =? 0 then [] else [(t, WVar v)])
    (fun _ w _ => match w with WVar n => Some (wrap64 n) | _ => None end).

(** [#[prost(uint32, tag = "t")] x: u32], and [enumeration] ([i32]; only the
    values 0 to 3 are ever encoded, any other bit pattern stays distinct). *)
Definition p_u32 (t : N) : pcodec u32 :=
  PCodec [t] (wrap32 0) (fun v => if u32v v =? 0 then [] else [(t, WVar (u32v v))])
    (fun _ w _ => match w with WVar n => Some (wrap32 n) | _ => None end).

(** [#[prost(message, tag = "t")] x: Option<M>]: merged into the present
    value if any. *)
Definition p_opt {A} (t : N) (m : pcodec A) : pcodec (option A) :=
  PCodec [t] None (fun v => match v with Some a => [(t, WLen (pencode m a))] | None => [] end)
    (fun _ w v =>
       match w with
       | WLen b =>
           match pmerge m b (match v with Some a => a | None => pc_default m end) with
           | Some a => Some (Some a)
           | None => None
           end
       | _ => None
       end).

(** [#[prost(message, repeated, tag = "t")] x: Vec<M>] *)
Definition p_rep {A} (t : N) (m : pcodec A) : pcodec (list A) :=
  PCodec [t] [] (fun v => map (fun a => (t, WLen (pencode m a))) v)
    (fun _ w v =>
       match w with
       | WLen b => match pdecode m b with Some a => Some (v ++ [a]) | None => None end
       | _ => None
       end).

(** [#[prost(bytes, repeated, tag = "t")] x: Vec<Vec<u8>>] *)
Definition p_rep_bytes (t : N) : pcodec (list bytes) :=
  PCodec [t] [] (fun v => map (fun a => (t, WLen a)) v)
    (fun _ w v => match w with WLen b => Some (v ++ [b]) | _ => None end).

(** [#[prost(oneof = "..", tags = "..")] x: Option<Enum>], every variant a
    message; a later variant replaces an earlier one. *)
Record poneof (O : Type) := POneof {
  po_tags : list N;
  po_out : O -> wfield;
  po_in : N -> bytes -> option O }.
Arguments POneof {O}.
Arguments po_tags {O}.
Arguments po_out {O}.
Arguments po_in {O}.
Definition po_last {A} (t : N) (m : pcodec A) : poneof A :=
  POneof [t] (fun a => (t, WLen (pencode m a))) (fun _ b => pdecode m b).
Definition po_cons {A O} (t : N) (m : pcodec A) (o : poneof O) : poneof (A + O) :=
  POneof (t :: po_tags o)
    (fun v => match v with inl a => (t, WLen (pencode m a)) | inr x => po_out o x end)
    (fun t' b =>
       if t' =? t then match pdecode m b with Some a => Some (inl a) | None => None end
       else match po_in o t' b with Some x => Some (inr x) | None => None end).
Definition p_oneof {O} (o : poneof O) : pcodec (option O) :=
  PCodec (po_tags o) None (fun v => match v with Some x => [po_out o x] | None => [] end)
    (fun t w _ =>
       match w with
       | WLen b => match po_in o t b with Some x => Some (Some x) | None => None end
       | _ => None
       end).
