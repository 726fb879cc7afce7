(** * The state trie: core/executor/src/trie/mod.rs ([MPTTrie]) over
    core/executor/src/trie/trie_db.rs ([RocksTrieDB]).

    [MPTTrie] forwards to the crate cita_trie ([PatriciaTrie]), which is not in
    /repo: this file states its algorithm (the Merkle Patricia trie of the
    Ethereum yellow paper, with nodes loaded from the database on demand).  The
    two published Ethereum roots of MptExamples.v are computed with it.

    Simplifications:
    - Nibbles are [nat]; a key ends with the terminator 16, as in the crate.
    - The two recursive calls of the crate's [insert_at] on a node it has just
      built (an extension split by the new key) are unfolded into [split_ext].
    - A node stored by its hash is loaded one step; the crate would go on if the
      data were again a hash (no stored node is).
    - Inserting an empty value removes the key in the crate; no caller does it
      and removal is not modelled ([tr_insert] gives an error).
    - [light = false] (the configuration of docs/getting_started.md):
      [remove_batch] (trie_db.rs:76-88) does nothing; [insert_batch]
      (trie_db.rs:50-65) is one RocksDB batch and writes all or nothing. *)
From Verif Require Import Base BaseFacts Types Rlp.
Local Open Scope N_scope.

Notation nibs := (list nat).
(** The terminator. *)
Notation TERM := 16%nat.

(** cita_trie [Nibbles::from_raw] *)
Definition to_nibs (b : bytes) : nibs :=
  flat_map (fun x => [N.to_nat (bN x / 16); N.to_nat (bN x mod 16)]) b.
Definition key_nibs (b : bytes) : nibs := to_nibs b ++ [TERM].

(** [Nibbles::is_leaf] *)
Definition is_leaf_key (k : nibs) : bool :=
  match last k with Some n => Nat.eqb n TERM | None => false end.

Fixpoint pack (k : nibs) : bytes :=
  match k with
  | a :: b :: k' => byte_of (N.of_nat (16 * a + b)) :: pack k'
  | _ => []
  end.
(** [Nibbles::encode_compact] *)
Definition compact (k : nibs) : bytes :=
  let lf := is_leaf_key k in
  let hex := if lf then removelast k else k in
  let flag := if lf then 32%nat else 0%nat in
  if Nat.odd (length hex) then
    match hex with
    | a :: hex' => byte_of (N.of_nat (flag + 16 + a)) :: pack hex'
    | [] => []
    end
  else byte_of (N.of_nat flag) :: pack hex.
(** [Nibbles::from_compact] *)
Definition from_compact (b : bytes) : nibs :=
  match to_nibs b with
  | f :: hex =>
      let rest := if Nat.odd f then hex else tl hex in
      if (2 <=? f)%nat then rest ++ [TERM] else rest
  | [] => []
  end.

(** [Nibbles::common_prefix] *)
Fixpoint common (a b : nibs) : nat :=
  match a, b with
  | x :: a', y :: b' => if Nat.eqb x y then S (common a' b') else O
  | _, _ => O
  end.

(** cita_trie [Node] *)
Inductive node :=
  | Empty
  | Leaf (k : nibs) (v : bytes)
  | Ext (k : nibs) (c : node)
  | Branch (cs : list node) (v : option bytes)
  | HashN (h : hash).

Section Mpt.
  Context (digest : bytes -> hash).

  (** [encode_node] of an encoded child: inline below 32 bytes, else its digest. *)
  Definition link (d : bytes) : bytes :=
    if (length d <? 32)%nat then d else enc_str (sbytes (digest d)).

  (** [encode_raw] *)
  Fixpoint enc (n : node) : bytes :=
    let child c := match c with HashN h => enc_str (sbytes h) | _ => link (enc c) end in
    match n with
    | Empty => [x80]
    | Leaf k v => enc_list [enc_str (compact k); enc_str v]
    | Ext k c => enc_list [enc_str (compact k); child c]
    | Branch cs v => enc_list (map child cs ++ [match v with Some v => enc_str v | None => [x80] end])
    | HashN h => enc_str (sbytes h)
    end.
  Definition child (c : node) : bytes :=
    match c with HashN h => enc_str (sbytes h) | _ => link (enc c) end.

  (** [decode_node].  Fuel: an inline child is shorter than its parent. *)
  Fixpoint decode_at (f : nat) (d : bytes) : option node :=
    match f with
    | O => None
    | S f =>
        if is_list d then
          match rlp_items d with
          | [a; b] =>
              match rlp_data a with
              | Ok ck =>
                  let k := from_compact ck in
                  if is_leaf_key k then match rlp_data b with Ok v => Some (Leaf k v) | _ => None end
                  else match decode_at f b with Some c => Some (Ext k c) | None => None end
              | _ => None
              end
          | items =>
              if (length items =? 17)%nat then
                match mapM (decode_at f) (take 16 items), nth_error items 16 with
                | Some cs, Some v =>
                    match rlp_data v with
                    | Ok [] => Some (Branch cs None)
                    | Ok w => Some (Branch cs (Some w))
                    | _ => None
                    end
                | _, _ => None
                end
              else None
          end
        else
          match rlp_data d with
          | Ok [] => Some Empty
          | Ok h => match to_sized 32 h with Some h => Some (HashN h) | None => None end
          | _ => None
          end
    end.
  Definition decode (d : bytes) : option node := decode_at (S (length d)) d.

  (** [recover_from_db], for a node that is only a hash *)
  Definition resolve (db : gmap hash bytes) (n : node) : option node :=
    match n with
    | HashN h => match db !! h with Some d => decode d | None => Some Empty end
    | _ => Some n
    end.

  (** [get_at] *)
  Fixpoint get_at (f : nat) (db : gmap hash bytes) (n : node) (p : nibs) : option (option bytes) :=
    match f with
    | O => None
    | S f =>
        match resolve db n with
        | Some Empty => Some None
        | Some (Leaf k v) => Some (if decide (k = p) then Some v else None)
        | Some (Ext k c) =>
            if (common p k =? length k)%nat then get_at f db c (drop (length k) p) else Some None
        | Some (Branch cs v) =>
            match p with
            | [] => Some v
            | i :: p' =>
                if (i =? TERM)%nat then Some v
                else match nth_error cs i with Some c => get_at f db c p' | None => None end
            end
        | Some (HashN _) | None => None
        end
    end.

  (** [BranchNode::insert]; the value of a leaf put at the terminator *)
  Definition bput (i : nat) (n : node) (cs : list node) (v : option bytes) : list node * option bytes :=
    if (i =? TERM)%nat then (cs, match n with Leaf _ w => Some w | _ => v end) else (<[i := n]> cs, v).
  Definition no_children : list node := repeat Empty 16.
  (** Two nodes below a new branch, at [i] and [j]. *)
  Definition fork (i : nat) (n : node) (j : nat) (m : node) : node :=
    let '(cs, v) := bput i n no_children None in
    let '(cs, v) := bput j m cs v in Branch cs v.
  Definition prefixed (pre : nibs) (n : node) : node :=
    match pre with [] => n | _ => Ext pre n end.
  (** An extension [k] over [c] and a new key [p] that differ in the first nibble. *)
  Definition split_ext (k : nibs) (c : node) (p : nibs) (v : bytes) : option node :=
    match k, p with
    | i :: k', j :: p' => Some (fork i (prefixed k' c) j (Leaf p' v))
    | _, _ => None
    end.
  Definition split_leaf (k : nibs) (w : bytes) (p : nibs) (v : bytes) : option node :=
    match k, p with
    | i :: k', j :: p' => Some (fork i (Leaf k' w) j (Leaf p' v))
    | _, _ => None
    end.

  (** [insert_at] *)
  Fixpoint insert_at (f : nat) (db : gmap hash bytes) (n : node) (p : nibs) (v : bytes) : option node :=
    match f with
    | O => None
    | S f =>
        match resolve db n with
        | Some Empty => Some (Leaf p v)
        | Some (Leaf k w) =>
            let m := common p k in
            if (m =? length k)%nat then Some (Leaf k v)
            else option_map (prefixed (take m p)) (split_leaf (drop m k) w (drop m p) v)
        | Some (Ext k c) =>
            let m := common p k in
            if (m =? length k)%nat then option_map (Ext k) (insert_at f db c (drop m p) v)
            else option_map (prefixed (take m p)) (split_ext (drop m k) c (drop m p) v)
        | Some (Branch cs w) =>
            match p with
            | [] => None
            | i :: p' =>
                if (i =? TERM)%nat then Some (Branch cs (Some v))
                else match nth_error cs i with
                     | Some c => option_map (fun c' => Branch (<[i := c']> cs) w) (insert_at f db c p' v)
                     | None => None
                     end
            end
        | Some (HashN _) | None => None
        end
    end.

  (** The encodings [encode_node] caches for the database. *)
  Fixpoint writes (n : node) : list bytes :=
    let below c := match c with
                   | HashN _ => []
                   | _ => (if (length (enc c) <? 32)%nat then [] else [enc c]) ++ writes c
                   end in
    match n with
    | Ext _ c => below c
    | Branch cs _ => concat (map below cs)
    | _ => []
    end.
  Definition below (c : node) : list bytes :=
    match c with
    | HashN _ => []
    | _ => (if (length (enc c) <? 32)%nat then [] else [enc c]) ++ writes c
    end.
  Definition put_all (l : list bytes) (db : gmap hash bytes) : gmap hash bytes :=
    fold_right (fun d db => <[digest d := d]> db) db l.

  (** *** [MPTTrie] *)
  (** trie/mod.rs:28-35 *)
  Definition tr_new : node := Empty.
  (** trie/mod.rs:37-42: [None] is the error [InvalidStateRoot] (or data that is
      not a node) *)
  Definition tr_from (root : hash) (db : gmap hash bytes) : option node :=
    match db !! root with Some d => decode d | None => None end.
  (** trie/mod.rs:44-50 *)
  Definition tr_get (db : gmap hash bytes) (n : node) (k : bytes) : option (option bytes) :=
    get_at (S (length (key_nibs k))) db n (key_nibs k).
  (** trie/mod.rs:52-54 *)
  Definition tr_contains (db : gmap hash bytes) (n : node) (k : bytes) : option bool :=
    option_map (fun o => match o with Some _ => true | None => false end) (tr_get db n k).
  (** trie/mod.rs:56-61 *)
  Definition tr_insert (db : gmap hash bytes) (n : node) (k v : bytes) : option node :=
    match v with [] => None | _ => insert_at (S (length (key_nibs k))) db n (key_nibs k) v end.
  (** trie/mod.rs:63-68: the root, the database after the batch, the trie
      reloaded from it *)
  Definition tr_commit (db : gmap hash bytes) (n : node) : hash * gmap hash bytes * option node :=
    let root := digest (enc n) in
    let db' := put_all (enc n :: writes n) db in
    (root, db', tr_from root db').

  (** The root of a map: insert its entries one after the other. *)
  Definition inserts (db : gmap hash bytes) (l : list (bytes * bytes)) (n : node) : option node :=
    fold_left (fun o kv => match o with Some n => tr_insert db n kv.1 kv.2 | None => None end) l (Some n).
  Definition tree_of (m : gmap bytes bytes) : node :=
    match inserts ∅ (map_to_list m) Empty with Some n => n | None => Empty end.
  Definition mpt_root (m : gmap bytes bytes) : hash := digest (enc (tree_of m)).
End Mpt.
