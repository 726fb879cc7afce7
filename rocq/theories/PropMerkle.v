(** * C26: Merkle proofs. *)
From Verif Require Import Base BaseFacts Types Merkle MerkleProof ConsMsg PropConsMsg.
From Verif Require Import Storage StorageSpec StorageExamples Keccak MixSetup.

(** There is a proof for exactly the positions of the list. *)
Theorem C26_proof_exists_iff : forall digest shapes (l : list hash) (i : nat),
  good_shapes shapes -> (merkle_proof digest shapes l i <> None <-> (i < length l)%nat).
Proof.
  intros digest shapes l i Hg. unfold merkle_proof. destruct l as [|x l]; [cbn; split; [congruence|lia]|].
  rewrite not_eq_None_Some, path_some, (Hg (length (x :: l))) by (cbn [length]; lia). rewrite elem_of_seq. lia.
Qed.
Print Assumptions C26_proof_exists_iff.

(** The hash at that position and its proof lead to the root. *)
Theorem C26_proof_leads_to_root : forall digest shapes (l : list hash) (i : nat) (h : hash) p,
  l !! i = Some h -> merkle_proof digest shapes l i = Some p -> merkle_root digest shapes l = Some (climb digest h p).
Proof.
  intros digest shapes l i h p Hi. unfold merkle_proof, merkle_root. destruct l as [|x l]; [discriminate|]. intros E.
  apply path_climbs in E. rewrite Hi in E. change (climb digest h p = shape_root digest (shapes (length (x :: l))) (x :: l)) in E. rewrite E. reflexivity.
Qed.
Print Assumptions C26_proof_leads_to_root.

(** No other hash does, with siblings on the same sides. *)
Theorem C26_proof_binds : forall digest shapes (l : list hash) (i : nat) p (h : hash) q,
  good_shapes shapes ->
  merkle_proof digest shapes l i = Some p -> map pn_right q = map pn_right p ->
  merkle_root digest shapes l = Some (climb digest h q) ->
  no_collision digest (merkle_inputs digest shapes l ++ climb_inputs digest h q) ->
  l !! i = Some h /\ q = p.
Proof.
  intros digest shapes l i p h q Hg E Hs Hr Hnc.
  assert ((i < length l)%nat) as Hi by (apply (C26_proof_exists_iff digest shapes l i Hg); congruence).
  destruct (lookup_lt_is_Some_2 l i Hi) as [x Hx]. unfold merkle_proof, merkle_root, merkle_inputs in *.
  destruct l as [|y l]; [discriminate|]. injection Hr as Hr. symmetry in Hr.
  destruct (path_binds digest shapes (shapes (length (y :: l))) (y :: l) i p h q Hnc E Hs Hr) as [G1 G2]. rewrite Hx in G1 |- *. change (h = x) in G1. subst. auto.
Qed.
Print Assumptions C26_proof_binds.

(** The sides tell the position: proofs of two positions differ in them. *)
Theorem C26_sides_tell_position : forall digest shapes (l : list hash) (i j : nat) p q,
  merkle_proof digest shapes l i = Some p -> merkle_proof digest shapes l j = Some q ->
  map pn_right p = map pn_right q -> i = j.
Proof.
  intros digest shapes l i j p q. unfold merkle_proof. destruct l as [|x l]; [discriminate|]. apply path_sides.
Qed.
Print Assumptions C26_sides_tell_position.

(** But a receiver who does not know which sides to expect is told lies: leaves
    and inner nodes are hashed alike, so in every list of three or more some
    hash that is not in it has a proof. *)
Theorem C26_foreign_hash_proved_refuted : forall digest shapes (l : list hash),
  good_shapes shapes -> (3 <= length l)%nat ->
  (forall x, x ∈ merkle_inputs digest shapes l -> digest x ∉ l) ->
  exists h p, h ∉ l /\ p <> [] /\ merkle_root digest shapes l = Some (climb digest h p).
Proof.
  intros digest shapes l Hg H3 Hn. unfold merkle_root, merkle_inputs in *. destruct l as [|y l]; [cbn in H3; lia|].
  destruct (inner_node digest shapes (shapes (length (y :: l))) (y :: l)) as (x & p & Hp & Hx & E).
  - rewrite (Hg (length (y :: l))), seq_length by lia. exact H3.
  - exists (digest x), p. split; [apply Hn, Hx|]. split; [exact Hp|]. rewrite E. reflexivity.
Qed.
Print Assumptions C26_foreign_hash_proved_refuted.

(** Three hashes, the proof of the second, and that no inner node is one of them. *)
Definition three : list hash := [mixd [x01]; mixd [x02]; mixd [x03]].
Example three_proof : map pn_right <$> merkle_proof mixd comb_shapes three 1 = Some [false; true].
Proof. vm_compute. reflexivity. Qed.
Example three_bound : no_collision mixd (merkle_inputs mixd comb_shapes three) /\
  forall x, x ∈ merkle_inputs mixd comb_shapes three -> mixd x ∉ three.
Proof.
  split.
  - intros x y Hx Hy H.
    assert (forallb (fun x => forallb (fun y => bytes_eqb x y || negb (bytes_eqb (sbytes (mixd x)) (sbytes (mixd y))))
      (merkle_inputs mixd comb_shapes three)) (merkle_inputs mixd comb_shapes three) = true) as B by (vm_compute; reflexivity).
    rewrite forallb_forall in B. specialize (B x (proj1 (elem_of_list_In _ _) Hx)). rewrite forallb_forall in B.
    specialize (B y (proj1 (elem_of_list_In _ _) Hy)). apply orb_true_iff in B as [B|B]; [apply bytes_eqb_eq, B|].
    rewrite H in B. apply negb_true_iff in B. assert (bytes_eqb (sbytes (mixd y)) (sbytes (mixd y)) = true) by (apply bytes_eqb_eq; reflexivity). congruence.
  - intros x Hx Hin.
    assert (forallb (fun x => forallb (fun y => negb (bytes_eqb (sbytes (mixd x)) (sbytes y))) three) (merkle_inputs mixd comb_shapes three) = true)
      as B by (vm_compute; reflexivity).
    rewrite forallb_forall in B. specialize (B x (proj1 (elem_of_list_In _ _) Hx)). rewrite forallb_forall in B.
    specialize (B (mixd x) (proj1 (elem_of_list_In _ _) Hin)). apply negb_true_iff in B.
    assert (bytes_eqb (sbytes (mixd x)) (sbytes (mixd x)) = true) by (apply bytes_eqb_eq; reflexivity). congruence.
Qed.
