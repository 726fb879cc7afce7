(** * Merkle roots: common/merkle/src/lib.rs.

    The crate static_merkle_tree, which decides where the hashes go in the
    tree, is not in the repository.  It is represented by an arbitrary family
    of tree shapes, one per number of hashes, whose leaves are the positions
    of the list, each exactly once ([good_shapes]). *)
From Verif Require Import Base BaseFacts Types.
From Coq Require Import Permutation.

Inductive shape := Leaf (i : nat) | Branch (l r : shape).
Fixpoint leaves (s : shape) : list nat :=
  match s with Leaf i => [i] | Branch l r => leaves l ++ leaves r end.
Definition good_shapes (shapes : nat -> shape) : Prop :=
  forall n, (0 < n)%nat -> leaves (shapes n) ≡ₚ seq 0 n.

Section Merkle.
  Context (digest : bytes -> hash) (shapes : nat -> shape).

  (** [merge], lib.rs:45-53 *)
  Definition merge (l r : hash) : hash := digest (sbytes l ++ sbytes r).

  Fixpoint shape_root (s : shape) (l : list hash) : hash :=
    match s with
    | Leaf i => default (hash_from_empty digest) (l !! i)
    | Branch a b => merge (shape_root a l) (shape_root b l)
    end.

  (** [Merkle::from_hashes(hashes).get_root_hash()], lib.rs:17-27: [None] for
      no hashes. *)
  Definition merkle_root (l : list hash) : option hash :=
    match l with [] => None | _ => Some (shape_root (shapes (length l)) l) end.

  (** [.unwrap_or_else(Hash::from_empty)], engine.rs:71, 356, 374 *)
  Definition merkle_root_or_empty (l : list hash) : hash := default (hash_from_empty digest) (merkle_root l).

  (** The strings hashed to compute a root (specification of "no collision"). *)
  Fixpoint shape_inputs (s : shape) (l : list hash) : list bytes :=
    match s with
    | Leaf _ => []
    | Branch a b => (sbytes (shape_root a l) ++ sbytes (shape_root b l)) :: shape_inputs a l ++ shape_inputs b l
    end.
  Definition merkle_inputs (l : list hash) : list bytes :=
    match l with [] => [] | _ => shape_inputs (shapes (length l)) l end.

  Lemma shape_root_inj (inputs : list bytes) s a b :
    (forall x y, x ∈ inputs -> y ∈ inputs -> digest x = digest y -> x = y) ->
    (forall x, x ∈ shape_inputs s a \/ x ∈ shape_inputs s b -> x ∈ inputs) ->
    shape_root s a = shape_root s b ->
    forall i, i ∈ leaves s -> default (hash_from_empty digest) (a !! i) = default (hash_from_empty digest) (b !! i).
  Proof.
    intros Hnc. induction s as [j|l IHl r IHr]; intros Hin Hr i Hi; cbn [shape_root leaves shape_inputs] in *.
    - apply elem_of_list_singleton in Hi as ->. exact Hr.
    - unfold merge in Hr. apply Hnc in Hr.
      + apply app_inj_1 in Hr as [Hl Hr].
        2:{ rewrite !sized_len. reflexivity. }
        apply sized_eq in Hl. apply sized_eq in Hr. apply elem_of_app in Hi as [Hi|Hi].
        * apply IHl; auto. intros x Hx. apply Hin. rewrite !elem_of_cons, !elem_of_app. tauto.
        * apply IHr; auto. intros x Hx. apply Hin. rewrite !elem_of_cons, !elem_of_app. tauto.
      + apply Hin. left. left.
      + apply Hin. right. left.
  Qed.

  Lemma merkle_root_inj a b :
    good_shapes shapes -> length a = length b ->
    (forall x y, x ∈ merkle_inputs a ++ merkle_inputs b -> y ∈ merkle_inputs a ++ merkle_inputs b ->
       digest x = digest y -> x = y) ->
    merkle_root a = merkle_root b -> a = b.
  Proof.
    intros Hg Hl Hnc Hr. destruct a as [|x a], b as [|y b]; try discriminate; [reflexivity|].
    unfold merkle_root in Hr. assert (shape_root (shapes (length (x :: a))) (x :: a) = shape_root (shapes (length (y :: b))) (y :: b)) as Hr' by congruence.
    clear Hr. rename Hr' into Hr. apply list_eq_same_length with (n := length (x :: a)); [symmetry; exact Hl|reflexivity|].
    intros i u v Hi Hu Hv.
    pose proof (shape_root_inj (merkle_inputs (x :: a) ++ merkle_inputs (y :: b)) (shapes (length (x :: a))) (x :: a) (y :: b)) as H.
    unfold merkle_inputs in *. rewrite Hl in *. specialize (H Hnc).
    assert (default (hash_from_empty digest) ((x :: a) !! i) = default (hash_from_empty digest) ((y :: b) !! i)) as E.
    { apply H.
      - intros z. rewrite elem_of_app. tauto.
      - exact Hr.
      - rewrite (Hg (length (y :: b))) by (cbn [length]; lia). apply elem_of_seq. lia. }
    rewrite Hu, Hv in E. exact E.
  Qed.

  (** A list of two hashes has the root of a list of one. *)
  Lemma two_is_one a b : good_shapes shapes ->
    exists h, merkle_root [h] = merkle_root [a; b].
  Proof.
    intros Hg. unfold merkle_root. cbn [length].
    pose proof (Hg 1%nat ltac:(lia)) as H1.
    assert (shapes 1%nat = Leaf 0) as ->.
    { destruct (shapes 1%nat) as [i|l r] eqn:E; cbn [leaves] in H1.
      - apply Permutation_length_1 in H1 as ->. reflexivity.
      - exfalso. apply Permutation_length in H1. rewrite app_length in H1. cbn in H1.
        assert (forall s, (1 <= length (leaves s))%nat) as Hs.
        { intros s; induction s; cbn [leaves]; [cbn; lia|]. rewrite app_length. lia. }
        pose proof (Hs l). pose proof (Hs r). lia. }
    exists (shape_root (shapes 2%nat) [a; b]). reflexivity.
  Qed.
End Merkle.
