(** * core/mempool/src/map.rs: the 16-bucket concurrent map.
    A bucket's [RwLock<HashMap<Hash, V>>] is a [gmap]; every method takes the
    lock of one bucket for its whole body, so it is one atomic step per bucket
    ([deletes] and [clear] visit several buckets one after the other; here
    they are whole operations, the concurrent view is in MempoolConc.v). *)
From Verif Require Import Base BaseFacts Types.
Local Open Scope N_scope.

Section Map.
  Context {V : Type}.

  (** map.rs:12-14 *)
  Record tmap := MkTMap { tm_buckets : list (gmap hash V) }.

  (** [get_index], map.rs:83-85: [(hash.as_bytes()[0] >> 4) as usize] *)
  Definition get_index (h : hash) : nat :=
    match sbytes h with b :: _ => N.to_nat (N.shiftr (bN b) 4) | [] => 0%nat end.

  (** [Map::new], map.rs:20-29 *)
  Definition tm_new : tmap := MkTMap (repeat ∅ 16).

  Definition bucket (m : tmap) (i : nat) : gmap hash V := nth i (tm_buckets m) ∅.
  Definition set_bucket (m : tmap) (i : nat) (b : gmap hash V) : tmap :=
    MkTMap (<[i := b]> (tm_buckets m)).

  (** [Map::insert] and [Bucket::insert], map.rs:31-34, 95-102: a present key
      is kept and [Some(value)] (the new value) is returned. *)
  Definition tm_insert (m : tmap) (h : hash) (v : V) : option V * tmap :=
    let b := bucket m (get_index h) in
    match b !! h with
    | Some _ => (Some v, m)
    | None => (None, set_bucket m (get_index h) (<[h := v]> b))
    end.

  (** map.rs:36-39, 104-106 *)
  Definition tm_contains (m : tmap) (h : hash) : bool :=
    bool_decide (is_Some (bucket m (get_index h) !! h)).

  (** map.rs:41-44, 108-110 *)
  Definition tm_get (m : tmap) (h : hash) : option V := bucket m (get_index h) !! h.

  (** map.rs:62-65, 119-122 *)
  Definition tm_remove (m : tmap) (h : hash) : tmap :=
    set_bucket m (get_index h) (delete h (bucket m (get_index h))).

  (** [Bucket::deletes], map.rs:112-117 *)
  Definition bucket_deletes (b : gmap hash V) (hs : list hash) : gmap hash V :=
    fold_left (fun b h => delete h b) hs b.

  (** [Map::deletes], map.rs:46-60: hashes grouped by bucket in their order;
      the groups are then processed in an arbitrary order [is] of the bucket
      indices (rayon over a [HashMap]). *)
  Definition tm_deletes (is : list nat) (m : tmap) (hs : list hash) : tmap :=
    fold_left (fun m i =>
      set_bucket m i (bucket_deletes (bucket m i) (filter (fun h => get_index h = i) hs))) is m.

  (** map.rs:67-73 *)
  Definition tm_len (m : tmap) : nat := fold_left (fun n b => (n + size b)%nat) (tm_buckets m) 0%nat.

  (** map.rs:75-80 *)
  Definition tm_clear (m : tmap) : tmap := MkTMap (map (fun _ => ∅) (tm_buckets m)).
End Map.
Arguments tmap V : clear implicits.
