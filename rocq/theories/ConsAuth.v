(** * The authority list (C65). *)
From Verif Require Import Base BaseFacts Hex Types Mempool Consensus ConsSpec.
From Coq Require Import Permutation Sorting.Sorted.
Local Open Scope N_scope.

Definition auth_le (a b : auth) : Prop := bytes_leb (au_address a) (au_address b) = true.

Lemma insert_auth_perm a l : Permutation (insert_auth a l) (a :: l).
Proof.
  induction l as [|b l IH]; cbn [insert_auth]; [reflexivity|].
  destruct (bytes_leb _ _); [reflexivity|]. rewrite IH. apply perm_swap.
Qed.
Lemma sort_auth_perm l : Permutation (sort_auth l) l.
Proof.
  unfold sort_auth. induction l as [|a l IH]; cbn [foldr]; [reflexivity|]. rewrite insert_auth_perm. constructor. exact IH.
Qed.
Lemma insert_auth_sorted a l : StronglySorted auth_le l -> StronglySorted auth_le (insert_auth a l).
Proof.
  induction 1 as [|b l Hs IH Hb]; cbn [insert_auth].
  - constructor; [constructor|constructor].
  - destruct (bytes_leb (au_address a) (au_address b)) eqn:E.
    + constructor; [constructor; assumption|]. constructor; [exact E|].
      eapply Forall_impl; [exact Hb|]. intros c Hc. exact (bytes_leb_trans _ _ _ E Hc).
    + constructor; [exact IH|]. eapply Permutation_Forall; [symmetry; apply insert_auth_perm|].
      constructor; [|exact Hb]. destruct (bytes_leb_total (au_address a) (au_address b)) as [X|X]; [congruence|exact X].
Qed.
Lemma sort_auth_sorted l : StronglySorted auth_le (sort_auth l).
Proof. unfold sort_auth. induction l as [|a l IH]; cbn [foldr]; [constructor|]. apply insert_auth_sorted, IH. Qed.

Lemma sorted_spec l : StronglySorted auth_le l -> auth_sorted l.
Proof.
  induction 1 as [|x l Hs IH Hx]; intros i j a b Ha Hb Hij; [discriminate|].
  destruct j as [|j]; [lia|]. cbn in Hb. destruct i as [|i]; cbn in Ha.
  - injection Ha as <-. rewrite Forall_forall in Hx. apply Hx. apply elem_of_list_lookup_2 with j, Hb.
  - apply (IH i j); [assumption..|lia].
Qed.

(** A sorted list without two equal addresses is determined by its content. *)
Lemma sorted_unique l : forall l', StronglySorted auth_le l -> StronglySorted auth_le l' -> Permutation l l' ->
  List.NoDup (map au_address l) -> l = l'.
Proof.
  induction l as [|a l IH]; intros l' H H' Hp Hn.
  - apply Permutation_nil in Hp. congruence.
  - destruct l' as [|b l']; [symmetry in Hp; apply Permutation_nil in Hp; discriminate|].
    inversion H as [|? ? Hs Ha]; subst. inversion H' as [|? ? Hs' Hb]; subst. inversion Hn as [|? ? Hni Hn']; subst.
    assert (a = b) as ->.
    { assert (In b (a :: l)) as Ib by (apply (Permutation_in _ (Permutation_sym Hp)); left; reflexivity).
      assert (In a (b :: l')) as Ia by (apply (Permutation_in _ Hp); left; reflexivity).
      destruct Ib as [|Ib]; [assumption|]. destruct Ia as [|Ia]; [congruence|]. exfalso.
      rewrite List.Forall_forall in Ha, Hb. pose proof (bytes_leb_antisym _ _ (Ha b Ib) (Hb a Ia)) as E.
      apply Hni. rewrite E. apply in_map, Ib. }
    f_equal. apply IH; try assumption. apply Permutation_cons_inv in Hp. exact Hp.
Qed.
Lemma sort_auth_order_free l l' : Permutation l l' -> List.NoDup (map au_address l) -> sort_auth l = sort_auth l'.
Proof.
  intros Hp Hn. apply sorted_unique; try apply sort_auth_sorted.
  - rewrite !sort_auth_perm. exact Hp.
  - eapply Permutation_NoDup; [|exact Hn]. apply Permutation_map. symmetry. apply sort_auth_perm.
Qed.
