(** * Endpoints: model of core/network/src/endpoint.rs

    Strings are valid UTF-8 byte sequences ([rstring]); ['/'] is ASCII, so
    searching it char-wise and byte-wise is the same thing. *)
From Coq Require Import List Bool NArith Lia.
From Coq Require Strings.String.
From stdpp Require Import base decidable list.
From Verif Require Import Base.
Import ListNotations.
Import String.StringSyntax.
Delimit Scope string_scope with string.
Local Open Scope N_scope.
Local Set Warnings "-abstract-large-number".

(** core/network/src/error.rs: the errors the modelled functions return. *)
Inductive net_err :=
  | NotEndpoint
  | UnexpectedScheme
  | NotIdString
  | NoSessionId
  | NoRpcId
  | NoReactor
  | BadMessage
  | CompressError
  | UnknownRpc
  | UnexpectedRpcSender
  | RpcDropped
  | SendError.
Notation nres := (res net_err).

(** ** UTF-8 strings can be concatenated and lose a leading ASCII char. *)
Lemma utf8_mono f : forall b, utf8_valid f b = true -> forall g, (f <= g)%nat -> utf8_valid g b = true.
Proof.
  induction f as [|f IH]; intros b H g Hg.
  - destruct b; [|discriminate]. destruct g; reflexivity.
  - destruct g as [|g]; [lia|]. apply le_S_n in Hg. revert H.
    destruct b as [|b0 r0]; [reflexivity|]. cbn [utf8_valid].
    destruct (bN b0 <? 128); [intros H; eapply IH; eauto|].
    destruct r0 as [|b1 r1]; [discriminate|].
    destruct (in_rng b0 194 223).
    { rewrite !andb_true_iff. intros [? H]. split; [assumption|]. eapply IH; eauto. }
    destruct r1 as [|b2 r2]; [discriminate|].
    destruct (in_rng b0 224 239).
    { rewrite !andb_true_iff. intros [? H]. split; [assumption|]. eapply IH; eauto. }
    destruct r2 as [|b3 r3]; [discriminate|].
    destruct (in_rng b0 240 244); [|discriminate].
    rewrite !andb_true_iff. intros [? H]. split; [assumption|]. eapply IH; eauto.
Qed.

Lemma utf8_app_fuel f : forall a, utf8_valid f a = true ->
  forall g b, utf8_valid g b = true -> utf8_valid (f + g) (a ++ b) = true.
Proof.
  induction f as [|f IH]; intros a Ha g b Hb.
  - destruct a; [|discriminate]. exact Hb.
  - destruct a as [|b0 r0]; [eapply utf8_mono; [exact Hb|lia]|].
    revert Ha. cbn [utf8_valid app Nat.add].
    destruct (bN b0 <? 128); [intros H; apply IH; assumption|].
    destruct r0 as [|b1 r1]; [discriminate|]. cbn [app].
    destruct (in_rng b0 194 223).
    { rewrite !andb_true_iff. intros [? H]. split; [assumption|]. apply IH; assumption. }
    destruct r1 as [|b2 r2]; [discriminate|]. cbn [app].
    destruct (in_rng b0 224 239).
    { rewrite !andb_true_iff. intros [? H]. split; [assumption|]. apply IH; assumption. }
    destruct r2 as [|b3 r3]; [discriminate|]. cbn [app].
    destruct (in_rng b0 240 244); [|discriminate].
    rewrite !andb_true_iff. intros [? H]. split; [assumption|]. apply IH; assumption.
Qed.

Lemma utf8_app a b : utf8 a = true -> utf8 b = true -> utf8 (a ++ b) = true.
Proof. unfold utf8. rewrite app_length. intros. apply utf8_app_fuel; assumption. Qed.

(** [format!("{}{}", a, b)] *)
Definition rcat (a b : rstring) : rstring := RString (rs a ++ rs b) (utf8_app _ _ (rs_ok a) (rs_ok b)).

(** ** Decimal numbers. *)
Definition digit (d : N) : byte := byte_of (48 + d).
Fixpoint dec_f (fuel : nat) (n : N) (acc : bytes) : bytes :=
  match fuel with
  | O => acc
  | S f => if n / 10 =? 0 then digit (n mod 10) :: acc else dec_f f (n / 10) (digit (n mod 10) :: acc)
  end.
(** [u64::to_string] (at most 20 digits) *)
Definition dec (n : N) : bytes := dec_f 20 n [].

(** [str::parse::<u64>]: one optional leading ['+'], then at least one digit,
    no overflow. *)
Fixpoint parse_digits (b : bytes) (acc : N) : option N :=
  match b with
  | [] => Some acc
  | c :: r =>
      if in_rng c 48 57 then
        let v := acc * 10 + (bN c - 48) in
        if v <? two64 then parse_digits r v else None
      else None
  end.
Definition parse_u64 (b : bytes) : option N :=
  match b with
  | [] => None
  | c :: r =>
      match (if bN c =? 43 then r else b) with
      | [] => None
      | ds => parse_digits ds 0
      end
  end.

Lemma dec_ascii n : n < two64 -> Forall (fun c => 48 <= bN c <= 57) (dec n).
Proof.
  intros _. unfold dec. assert (G : forall f n acc, Forall (fun c => 48 <= bN c <= 57) acc ->
    Forall (fun c => 48 <= bN c <= 57) (dec_f f n acc)).
  { induction f as [|f IH]; intros m acc Ha; cbn [dec_f]; [assumption|].
    assert (Hd : Forall (fun c => 48 <= bN c <= 57) (digit (m mod 10) :: acc)).
    { constructor; [|assumption]. pose proof (N.mod_lt m 10 ltac:(lia)) as Hm.
      set (d := m mod 10) in *. clearbody d.
      assert (d = 0 \/ d = 1 \/ d = 2 \/ d = 3 \/ d = 4 \/ d = 5 \/ d = 6 \/ d = 7 \/ d = 8 \/ d = 9) as Hc by lia.
      repeat (destruct Hc as [->|Hc]; [vm_compute; split; discriminate|]). subst d. vm_compute; split; discriminate. }
    destruct (m / 10 =? 0); [assumption|]. apply IH, Hd. }
  apply G. constructor.
Qed.

Lemma ascii_utf8 b : Forall (fun c => bN c < 128) b -> utf8 b = true.
Proof.
  unfold utf8. induction 1 as [|c r Hc _ IH]; [reflexivity|]. cbn [length utf8_valid].
  apply N.ltb_lt in Hc. rewrite Hc. exact IH.
Qed.

Lemma dec_utf8 n : n < two64 -> utf8 (dec n) = true.
Proof.
  intros H. apply ascii_utf8. eapply Forall_impl; [apply dec_ascii, H|]. cbn. lia.
Qed.

(** ** core/network/src/endpoint.rs:12-16 *)
Definition GOSSIP_SCHEME : bytes := ascii "/gossip"%string.
Definition RPC_CALL_SCHEME : bytes := ascii "/rpc_call"%string.
Definition RPC_RESPONSE_SCHEME : bytes := ascii "/rpc_resp"%string.
Definition MAX_ENDPOINT_LENGTH : N := 120.

(** core/network/src/endpoint.rs:18-28 *)
Inductive scheme := Gossip | RpcCall | RpcResponse.
Global Instance scheme_eq_dec : EqDecision scheme.
Proof. solve_decision. Defined.

Definition slash : byte := Byte.x2f.
Definition slash_str : rstring := RString [slash] eq_refl.

(** [str::starts_with] *)
Fixpoint starts_with (s pat : bytes) {struct pat} : bool :=
  match pat, s with
  | [], _ => true
  | p :: ps, c :: cs => beqb p c && starts_with cs ps
  | _ :: _, [] => false
  end.

(** [str::split('/')]: one piece more than there are slashes. *)
Fixpoint split (b : bytes) : list bytes :=
  match b with
  | [] => [[]]
  | c :: r =>
      if beqb c slash then [] :: split r
      else match split r with
           | [] => [[c]]
           | p :: ps => (c :: p) :: ps
           end
  end.
Definition not_empty (b : bytes) : bool := match b with [] => false | _ => true end.
(** [.split('/').filter(|comp| !comp.is_empty()).collect()] *)
Definition comps (b : bytes) : list bytes := List.filter not_empty (split b).

(** core/network/src/endpoint.rs:37-39: an endpoint is the string it was
    parsed from. *)
Record endpoint := Endpoint { full_url : rstring }.

(** core/network/src/endpoint.rs:95-123, [FromStr for Endpoint] *)
Definition parse_endpoint (s : rstring) : nres endpoint :=
  if (blen (rs s) =? 0) || (MAX_ENDPOINT_LENGTH <? blen (rs s)) then Err NotEndpoint
  else if negb (starts_with (rs s) GOSSIP_SCHEME) && negb (starts_with (rs s) RPC_CALL_SCHEME)
          && negb (starts_with (rs s) RPC_RESPONSE_SCHEME) then Err UnexpectedScheme
  else if ((length (comps (rs s)) <? 3)%nat || (4 <? length (comps (rs s)))%nat)%bool then Err NotEndpoint
  else Ok (Endpoint s).

(** core/network/src/endpoint.rs:46-56; the last branch is [unreachable!()] *)
Definition scheme_of (e : endpoint) : nres scheme :=
  let u := rs (full_url e) in
  if starts_with u GOSSIP_SCHEME then Ok Gossip
  else if starts_with u RPC_CALL_SCHEME then Ok RpcCall
  else if starts_with u RPC_RESPONSE_SCHEME then Ok RpcResponse
  else Panic.

(** core/network/src/endpoint.rs:59-68; indexing panics on a missing component *)
Definition root (e : endpoint) : nres bytes :=
  match comps (rs (full_url e)) with
  | c0 :: c1 :: c2 :: _ => Ok (slash :: c0 ++ slash :: c1 ++ slash :: c2)
  | _ => Panic
  end.

(** [str::trim_start_matches('/')] *)
Fixpoint trim_start (b : bytes) : bytes :=
  match b with
  | c :: r => if beqb c slash then trim_start r else b
  | [] => []
  end.
Lemma trim_start_utf8 b : utf8 b = true -> utf8 (trim_start b) = true.
Proof.
  induction b as [|c r IH]; [reflexivity|]. cbn [trim_start].
  destruct (beqb c slash) eqn:E; [|trivial]. intros H. apply IH.
  assert (c = slash) as -> by (apply Byte.byte_dec_bl; exact E). exact H.
Qed.
Definition rtrim (s : rstring) : rstring := RString (trim_start (rs s)) (trim_start_utf8 _ (rs_ok s)).

(** core/network/src/endpoint.rs:74-78 *)
Definition extend (e : endpoint) (comp : rstring) : nres endpoint :=
  parse_endpoint (rcat (rcat (full_url e) slash_str) (rtrim comp)).

(** [rid.to_string()] *)
Definition rid_str (rid : u64) : rstring :=
  RString (dec rid) (dec_utf8 rid (proj1 (N.ltb_lt _ _) (u64_ok rid))).

(** [str::rfind('/')] and the text after it *)
Fixpoint after_last_slash (b : bytes) : option bytes :=
  match b with
  | [] => None
  | c :: r =>
      match after_last_slash r with
      | Some t => Some t
      | None => if beqb c slash then Some r else None
      end
  end.

Lemma parse_digits_lt b : forall acc n, acc < two64 -> parse_digits b acc = Some n -> n < two64.
Proof.
  induction b as [|c r IH]; intros acc n Ha; cbn [parse_digits].
  - intros [= <-]. exact Ha.
  - destruct (in_rng c 48 57); [|discriminate].
    destruct (_ <? two64) eqn:E; [|discriminate]. apply IH. apply N.ltb_lt, E.
Qed.

(** core/network/src/endpoint.rs:150-167 [extract_rpc_id_from], and 170-178
    [TryFrom<Endpoint> for RpcEndpoint] *)
Definition rpc_id (e : endpoint) : nres u64 :=
  match after_last_slash (rs (full_url e)) with
  | None => Err NotEndpoint
  | Some [] => Err NotEndpoint
  | Some t =>
      match parse_u64 t with
      | Some n => Ok (wrap64 n)
      | None => Err NotIdString
      end
  end.
