(** * Merkle proofs: [get_proof_by_input_index], common/merkle/src/lib.rs:29-43.

    The crate static_merkle_tree is not in the repository; as in Merkle.v the
    place of each hash in the tree is an arbitrary family of shapes.  Its proofs
    are taken to be the siblings from the leaf up, each with the side it stands
    on, and nothing for an index outside the list (the crate's documentation). *)
From Verif Require Import Base BaseFacts Types Merkle.
From Coq Require Import Permutation.

(** lib.rs:6-10 *)
Record proof_node := ProofNode { pn_right : bool; pn_hash : hash }.

Section MerkleProof.
  Context (digest : bytes -> hash) (shapes : nat -> shape).
  Notation shape_root := (shape_root digest).
  Notation merge := (merge digest).

  Fixpoint shape_path (s : shape) (l : list hash) (i : nat) : option (list proof_node) :=
    match s with
    | Leaf j => if decide (j = i) then Some [] else None
    | Branch a b =>
        match shape_path a l i with
        | Some p => Some (p ++ [ProofNode true (shape_root b l)])
        | None => match shape_path b l i with
                  | Some p => Some (p ++ [ProofNode false (shape_root a l)])
                  | None => None
                  end
        end
    end.

  (** lib.rs:29-43 *)
  Definition merkle_proof (l : list hash) (i : nat) : option (list proof_node) :=
    match l with [] => None | _ => shape_path (shapes (length l)) l i end.

  (** Specification: what the receiver of a proof computes from a hash. *)
  Definition up (h : hash) (n : proof_node) : hash :=
    if pn_right n then merge h (pn_hash n) else merge (pn_hash n) h.
  Definition climb (h : hash) (p : list proof_node) : hash := fold_left up p h.
  (** ... and the strings it hashes on the way *)
  Fixpoint climb_inputs (h : hash) (p : list proof_node) : list bytes :=
    match p with
    | [] => []
    | n :: p' => (if pn_right n then sbytes h ++ sbytes (pn_hash n) else sbytes (pn_hash n) ++ sbytes h) :: climb_inputs (up h n) p'
    end.

  Lemma climb_snoc h p n : climb h (p ++ [n]) = up (climb h p) n.
  Proof. unfold climb. rewrite fold_left_app. reflexivity. Qed.
  Lemma climb_inputs_snoc h p n : climb_inputs h (p ++ [n]) =
    climb_inputs h p ++ [if pn_right n then sbytes (climb h p) ++ sbytes (pn_hash n) else sbytes (pn_hash n) ++ sbytes (climb h p)].
  Proof. revert h. induction p as [|m p IH]; intros h; cbn; [reflexivity|]. rewrite IH. reflexivity. Qed.

  Lemma path_some s l i : is_Some (shape_path s l i) <-> i ∈ leaves s.
  Proof.
    induction s as [j|a IHa b IHb]; cbn [shape_path leaves].
    - rewrite elem_of_list_singleton. destruct (decide (j = i)) as [E|E]; split; intros H; eauto.
      + destruct H as [? H]. discriminate.
      + congruence.
    - rewrite elem_of_app, <- IHa, <- IHb.
      destruct (shape_path a l i) as [p|]; [split; eauto|]. destruct (shape_path b l i) as [p|]; [split; eauto|].
      split; [intros [? H]; discriminate|intros [[? H]|[? H]]; discriminate].
  Qed.

  Lemma path_climbs s l i p : shape_path s l i = Some p -> climb (default (hash_from_empty digest) (l !! i)) p = shape_root s l.
  Proof.
    revert p. induction s as [j|a IHa b IHb]; cbn [shape_path]; intros p.
    - destruct (decide (j = i)) as [-> |]; [|discriminate]. intros [= <-]. reflexivity.
    - destruct (shape_path a l i) as [q|].
      + intros [= <-]. rewrite climb_snoc, (IHa q eq_refl). reflexivity.
      + destruct (shape_path b l i) as [q|]; [|discriminate]. intros [= <-]. rewrite climb_snoc, (IHb q eq_refl). reflexivity.
  Qed.

  Lemma path_binds s l i p h q :
    (forall x y, x ∈ shape_inputs digest s l ++ climb_inputs h q -> y ∈ shape_inputs digest s l ++ climb_inputs h q ->
       digest x = digest y -> x = y) ->
    shape_path s l i = Some p -> map pn_right q = map pn_right p -> climb h q = shape_root s l ->
    h = default (hash_from_empty digest) (l !! i) /\ q = p.
  Proof.
    revert p q. induction s as [j|a IHa b IHb]; cbn [shape_path]; intros p q Hnc E Hs Hr.
    - destruct (decide (j = i)) as [-> |]; [|discriminate]. injection E as <-. destruct q; [|discriminate]. split; [exact Hr|reflexivity].
    - assert (forall (r : list proof_node) (n : proof_node), p = r ++ [n] ->
        exists r' n', q = r' ++ [n'] /\ map pn_right r' = map pn_right r /\ pn_right n' = pn_right n) as Q.
      { intros r n ->. destruct q as [|n' r' _] using rev_ind; rewrite !map_app in Hs; cbn [map] in Hs.
        - symmetry in Hs. apply app_eq_nil in Hs as [_ Hs]. discriminate.
        - apply app_inj_tail in Hs as [H1 H2]. exists r', n'. auto. }
      assert (forall r' n', q = r' ++ [n'] ->
        sbytes (shape_root a l) ++ sbytes (shape_root b l) =
        (if pn_right n' then sbytes (climb h r') ++ sbytes (pn_hash n') else sbytes (pn_hash n') ++ sbytes (climb h r'))) as T.
      { intros r' n' ->. rewrite climb_snoc in Hr. cbn [Merkle.shape_root] in Hr. unfold up, Merkle.merge in Hr.
        symmetry. apply Hnc.
        - rewrite climb_inputs_snoc, !elem_of_app. right. right. left.
        - apply elem_of_app. left. left.
        - destruct (pn_right n'); exact Hr. }
      assert (forall r' n', q = r' ++ [n'] -> forall s0, (s0 = a \/ s0 = b) ->
        forall x y, x ∈ shape_inputs digest s0 l ++ climb_inputs h r' -> y ∈ shape_inputs digest s0 l ++ climb_inputs h r' ->
          digest x = digest y -> x = y) as N.
      { intros r' n' -> s0 Hs0 x y Hx Hy. apply Hnc.
        - rewrite climb_inputs_snoc. cbn [shape_inputs]. rewrite !elem_of_app, !elem_of_cons, !elem_of_app in *.
          destruct Hs0 as [-> | ->]; tauto.
        - rewrite climb_inputs_snoc. cbn [shape_inputs]. rewrite !elem_of_app, !elem_of_cons, !elem_of_app in *.
          destruct Hs0 as [-> | ->]; tauto. }
      destruct (shape_path a l i) as [r|].
      + injection E as <-. destruct (Q _ _ eq_refl) as (r' & n' & -> & H1 & H2). specialize (T _ _ eq_refl).
        cbn [pn_right] in H2. rewrite H2 in T. apply app_inj_1 in T as [T1 T2]; [|rewrite !sized_len; reflexivity].
        apply sized_eq in T1. apply sized_eq in T2.
        destruct (IHa r r' (N _ _ eq_refl a (or_introl eq_refl)) eq_refl H1 (eq_sym T1)) as [G1 G2].
        split; [exact G1|]. rewrite G2. do 2 f_equal. destruct n' as [b0 h0]. cbn in *. congruence.
      + destruct (shape_path b l i) as [r|]; [|discriminate].
        injection E as <-. destruct (Q _ _ eq_refl) as (r' & n' & -> & H1 & H2). specialize (T _ _ eq_refl).
        cbn [pn_right] in H2. rewrite H2 in T. apply app_inj_1 in T as [T1 T2]; [|rewrite !sized_len; reflexivity].
        apply sized_eq in T1. apply sized_eq in T2.
        destruct (IHb r r' (N _ _ eq_refl b (or_intror eq_refl)) eq_refl H1 (eq_sym T2)) as [G1 G2].
        split; [exact G1|]. rewrite G2. do 2 f_equal. destruct n' as [b0 h0]. cbn in *. congruence.
  Qed.

  (** The sides of a proof tell the position. *)
  Lemma path_sides s l i j p q : shape_path s l i = Some p -> shape_path s l j = Some q ->
    map pn_right p = map pn_right q -> i = j.
  Proof.
    revert p q. induction s as [k|a IHa b IHb]; cbn [shape_path]; intros p q.
    - destruct (decide (k = i)), (decide (k = j)); congruence.
    - destruct (shape_path a l i) as [r|].
      + intros [= <-]. destruct (shape_path a l j) as [r'|].
        * intros [= <-]. rewrite !map_app. intros H. apply app_inj_tail in H as [H _]. exact (IHa _ _ eq_refl eq_refl H).
        * destruct (shape_path b l j) as [r'|]; [|discriminate]. intros [= <-]. rewrite !map_app. intros H.
          apply app_inj_tail in H as [_ H]. discriminate.
      + destruct (shape_path b l i) as [r|]; [|discriminate]. intros [= <-]. destruct (shape_path a l j) as [r'|].
        * intros [= <-]. rewrite !map_app. intros H. apply app_inj_tail in H as [_ H]. discriminate.
        * destruct (shape_path b l j) as [r'|]; [|discriminate]. intros [= <-]. rewrite !map_app. intros H.
          apply app_inj_tail in H as [H _]. exact (IHb _ _ eq_refl eq_refl H).
  Qed.

  (** A node below the root that is not a leaf *)
  Lemma leaves_pos s : (1 <= length (leaves s))%nat.
  Proof. induction s; cbn [leaves]; [cbn; lia|]. rewrite app_length. lia. Qed.
  Lemma inner_node s l : (3 <= length (leaves s))%nat ->
    exists x p, p <> [] /\ x ∈ shape_inputs digest s l /\ climb (digest x) p = shape_root s l.
  Proof.
    destruct s as [j|a b]; cbn [leaves]; [cbn; lia|]. rewrite app_length. intros H.
    assert ((2 <= length (leaves a))%nat \/ (2 <= length (leaves b))%nat) as [D|D].
    { pose proof (leaves_pos a). pose proof (leaves_pos b). lia. }
    - destruct a as [j|a1 a2]; [cbn in D; lia|].
      exists (sbytes (shape_root a1 l) ++ sbytes (shape_root a2 l)), [ProofNode true (shape_root b l)].
      split; [discriminate|]. split; [|reflexivity]. cbn [shape_inputs]. rewrite elem_of_cons, elem_of_app. right. left. left.
    - destruct b as [j|b1 b2]; [cbn in D; lia|].
      exists (sbytes (shape_root b1 l) ++ sbytes (shape_root b2 l)), [ProofNode false (shape_root a l)].
      split; [discriminate|]. split; [|reflexivity]. cbn [shape_inputs]. rewrite elem_of_cons, elem_of_app. right. right. left.
  Qed.
End MerkleProof.
