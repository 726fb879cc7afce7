(** * Specification: a store of byte maps, for the state trie (C104).

    A user of the state trie opens handles on maps, reads and changes them, and
    commits them under a root.  [sp_step] says what every operation gives in
    terms of finite maps; [tr_step] is the model (Mpt.v). *)
From Verif Require Import Base BaseFacts Types Mpt StorageSpec.

Inductive trie_op :=
  | TNew                                  (* a new, empty trie *)
  | TFrom (root : hash)                   (* open the trie committed under [root] *)
  | TGet (i : nat) (k : bytes)
  | TContains (i : nat) (k : bytes)
  | TInsert (i : nat) (k v : bytes)
  | TCommit (i : nat)
  | TCrash                                (* the process ends: all handles are gone *)
  | TCommitCrash (i : nat) (written : bool). (* it ends during a commit, before or after the batch *)

Inductive trie_out :=
  | ODone | OVal (v : option bytes) | OBool (b : bool) | ORoot (r : hash)
  | OFail                                 (* the operation gives an error *)
  | ONoHandle.                            (* there is no such handle *)

(** ** Maps *)
Record maps := MkMaps { mp_kept : gmap hash (gmap bytes bytes); mp_open : list (gmap bytes bytes) }.

Section Spec.
  Context (root : gmap bytes bytes -> hash).
  Definition sp_step (s : maps) (o : trie_op) : trie_out * maps :=
    match o with
    | TNew => (ODone, MkMaps (mp_kept s) (mp_open s ++ [∅]))
    | TFrom r => match mp_kept s !! r with
                 | Some m => (ODone, MkMaps (mp_kept s) (mp_open s ++ [m]))
                 | None => (OFail, s)
                 end
    | TGet i k => match mp_open s !! i with Some m => (OVal (m !! k), s) | None => (ONoHandle, s) end
    | TContains i k => match mp_open s !! i with Some m => (OBool (bool_decide (is_Some (m !! k))), s) | None => (ONoHandle, s) end
    | TInsert i k v => match mp_open s !! i with
                       | Some m => (ODone, MkMaps (mp_kept s) (<[i := <[k := v]> m]> (mp_open s)))
                       | None => (ONoHandle, s)
                       end
    | TCommit i => match mp_open s !! i with
                   | Some m => (ORoot (root m), MkMaps (<[root m := m]> (mp_kept s)) (mp_open s))
                   | None => (ONoHandle, s)
                   end
    | TCrash => (ODone, MkMaps (mp_kept s) [])
    | TCommitCrash i b => match mp_open s !! i with
                          | Some m => (ODone, MkMaps (if b then <[root m := m]> (mp_kept s) else mp_kept s) [])
                          | None => (ONoHandle, s)
                          end
    end.
  Fixpoint sp_run (s : maps) (l : list trie_op) : list trie_out * maps :=
    match l with
    | [] => ([], s)
    | o :: l => let '(r, s') := sp_step s o in let '(rs, s'') := sp_run s' l in (r :: rs, s'')
    end.
  (** The maps committed along a history. *)
  Definition committed_by (s : maps) (o : trie_op) : list (gmap bytes bytes) :=
    match o with
    | TCommit i | TCommitCrash i true => match mp_open s !! i with Some m => [m] | None => [] end
    | _ => []
    end.
  Fixpoint committed_maps (s : maps) (l : list trie_op) : list (gmap bytes bytes) :=
    match l with [] => [] | o :: l => committed_by s o ++ committed_maps (sp_step s o).2 l end.
End Spec.

(** ** The model *)
Record tries := MkTries { tr_db : gmap hash bytes; tr_open : list node }.
Section Model.
  Context (digest : bytes -> hash).
  Definition tr_step (s : tries) (o : trie_op) : trie_out * tries :=
    match o with
    | TNew => (ODone, MkTries (tr_db s) (tr_open s ++ [tr_new]))
    | TFrom r => match tr_from r (tr_db s) with
                 | Some n => (ODone, MkTries (tr_db s) (tr_open s ++ [n]))
                 | None => (OFail, s)
                 end
    | TGet i k => match tr_open s !! i with
                  | Some n => (match tr_get (tr_db s) n k with Some v => OVal v | None => OFail end, s)
                  | None => (ONoHandle, s)
                  end
    | TContains i k => match tr_open s !! i with
                       | Some n => (match tr_contains (tr_db s) n k with Some b => OBool b | None => OFail end, s)
                       | None => (ONoHandle, s)
                       end
    | TInsert i k v => match tr_open s !! i with
                       | Some n => match tr_insert (tr_db s) n k v with
                                   | Some n' => (ODone, MkTries (tr_db s) (<[i := n']> (tr_open s)))
                                   | None => (OFail, s)
                                   end
                       | None => (ONoHandle, s)
                       end
    | TCommit i => match tr_open s !! i with
                   | Some n => let '(r, db, o) := tr_commit digest (tr_db s) n in
                               match o with
                               | Some n' => (ORoot r, MkTries db (<[i := n']> (tr_open s)))
                               | None => (OFail, MkTries db (tr_open s))
                               end
                   | None => (ONoHandle, s)
                   end
    | TCrash => (ODone, MkTries (tr_db s) [])
    | TCommitCrash i b => match tr_open s !! i with
                          | Some n => (ODone, MkTries (if b then (tr_commit digest (tr_db s) n).1.2 else tr_db s) [])
                          | None => (ONoHandle, s)
                          end
    end.
  Fixpoint tr_run (s : tries) (l : list trie_op) : list trie_out * tries :=
    match l with
    | [] => ([], s)
    | o :: l => let '(r, s') := tr_step s o in let '(rs, s'') := tr_run s' l in (r :: rs, s'')
    end.

  (** The encodings of the nodes of a map's trie: the inputs of the digest. *)
  Definition parts (m : gmap bytes bytes) : list bytes := enc digest (tree_of m) :: writes digest (tree_of m).

  (** *** Fair histories *)
  (** Keys below 2 GB; values not empty and below 4 GB. *)
  Definition fair_entry (k v : bytes) : Prop :=
    (N.of_nat (length k) < 2147483647)%N /\ v <> [] /\ (N.of_nat (length v) < 4294967296)%N.
  Definition fair_map (m : gmap bytes bytes) : Prop := map_Forall fair_entry m.
  (** Entries are fair; roots opened are roots of committed tries, or hashes of
      nothing that was committed ([done]). *)
  Definition fair_op (done : list (gmap bytes bytes)) (s : maps) (o : trie_op) : Prop :=
    match o with
    | TInsert _ k v => fair_entry k v
    | TFrom r => is_Some (mp_kept s !! r) \/ forall m d, m ∈ done -> d ∈ parts m -> digest d <> r
    | _ => True
    end.
  Fixpoint fair (done : list (gmap bytes bytes)) (s : maps) (l : list trie_op) : Prop :=
    match l with
    | [] => True
    | o :: l => fair_op done s o /\ fair (done ++ committed_by s o) (sp_step (mpt_root digest) s o).2 l
    end.
End Model.

(** At first nothing is stored and nothing is open. *)
Definition maps0 : maps := MkMaps ∅ [].
Definition tries0 : tries := MkTries ∅ [].
