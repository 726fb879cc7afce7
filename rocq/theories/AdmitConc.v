(** * core/mempool/src/lib.rs:76-98, [insert], under concurrency: any number of
    submissions at once, on the pool of MempoolConc.v.

    The test of the pool's size, the test for a duplicate, the verification
    (awaited: signature, transaction, storage) and the steps of [insert_new_tx]
    interleave with everything else; [len] (map.rs:65-71) locks and counts the
    sixteen buckets one after the other, a step each.  Simplifications: the answer
    of the verification is chosen by the scheduler; the broadcast afterwards is
    left out. *)
From Verif Require Import Base BaseFacts Hex Types Rlp FixedCodec TxMap Mempool MempoolConc.
Local Open Scope nat_scope.

(** The entries of bucket [i], map.rs:83-85 and 133-135 *)
Definition bucket_len (i : nat) (m : gmap hash wrapper) : nat := size (filter (fun x => get_index x.1 = i) m).

(** Where a call of [insert] is: in [len], [i] buckets done with [c] entries (a
    call starts here, at 0 and 0); below the limit; not pooled; refused; in
    [insert_new_tx] as the inserter of the pool with this number. *)
Inductive apos := ACount (i c : nat) | ARoom | ANew | ARefused (e : mp_err) | AIn (i : nat).
Record adm := MkAdm { a_pool : cst; a_calls : list (signed_tx * apos) }.

Inductive alabel :=
| ACall (t : signed_tx)            (* a user or a peer submits [t] *)
| ALimit (j : nat)                 (* lib.rs:79: the next bucket of [len], then the test *)
| AExist (j : nat)                 (* lib.rs:80 *)
| AVerify (j : nat) (r : option mp_err)  (* lib.rs:81-89 *)
| APool (l : label).               (* anything else *)

Definition a_step (n : nat) (a : adm) (l : alabel) : adm :=
  let c := a_pool a in
  let go j t p := MkAdm c (<[j := (t, p)]> (a_calls a)) in
  match l with
  | ACall t => MkAdm c (a_calls a ++ [(t, ACount 0 0)])
  | ALimit j =>
      match a_calls a !! j with
      | Some (t, ACount i k) =>
          go j t (if i <? 16 then ACount (S i) (k + bucket_len i (c_map c))
                  else if n <=? k then ARefused (MReachLimit n) else ARoom)
      | _ => a
      end
  | AExist j =>
      match a_calls a !! j with
      | Some (t, ARoom) => go j t (match c_map c !! st_tx_hash t with Some _ => ARefused (MDup (st_tx_hash t)) | None => ANew end)
      | _ => a
      end
  | AVerify j r =>
      match a_calls a !! j with
      | Some (t, ANew) =>
          match r with
          | Some e => go j t (ARefused e)
          | None => MkAdm (c_step c (LSpawn t false)) (<[j := (t, AIn (length (c_ins c)))]> (a_calls a))
          end
      | _ => a
      end
  | APool l => MkAdm (c_step c l) (a_calls a)
  end.
(** A pool of [n] transactions (queues of [4 * n]), nothing called yet *)
Definition a_new (n : nat) : adm := MkAdm (c_new (4 * n)) [].
Definition a_run (n : nat) (s : list alabel) : adm := fold_left (a_step n) s (a_new n).

(** Specification: the calls that have not returned; the result of a call; the
    number of pooled transactions. *)
Definition before_pool (x : signed_tx * apos) : bool := match x.2 with ACount _ _ | ARoom | ANew => true | _ => false end.
Definition in_pool (x : wrapper * ist) : bool := match x.2 with IDone _ => false | _ => true end.
Definition outstanding (a : adm) : nat :=
  length (List.filter before_pool (a_calls a)) + length (List.filter in_pool (c_ins (a_pool a))).
Definition result (a : adm) (j : nat) : option (res mp_err unit) :=
  match a_calls a !! j with
  | Some (_, ARefused e) => Some (Err e)
  | Some (_, AIn i) => match c_ins (a_pool a) !! i with Some (_, IDone r) => Some r | _ => None end
  | _ => None
  end.
Definition pooled (a : adm) : nat := size (c_map (a_pool a)).
(** No proposed transactions are taken from other nodes meanwhile. *)
Definition not_spawn (l : alabel) : bool := match l with APool (LSpawn _ _) => false | _ => true end.
