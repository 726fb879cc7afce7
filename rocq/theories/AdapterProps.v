(** * C15: the contract state adapter is a map with savepoints. *)
From Verif Require Import Base BaseFacts Types Rlp RlpFacts FixedCodec FixedCodecFacts CodecProps
  StateAdapter StateAdapterFacts.
From Coq Require Import Permutation.
Local Open Scope N_scope.

(** ** Specification: three plain maps *)
Record saves (K V : Type) `{Countable K} := MkSaves {
  sv_committed : gmap K V;   (** what the last commit made durable *)
  sv_stashed : gmap K V;     (** the last savepoint *)
  sv_now : gmap K V          (** what [get] shows *) }.
Arguments MkSaves {K V _ _}. Arguments sv_committed {K V _ _}. Arguments sv_stashed {K V _ _}. Arguments sv_now {K V _ _}.

(** The operations; the functions are the iteration orders of the hash maps
    drained by the operation. *)
Inductive op (K V : Type) :=
| OInsert (k : K) (v : V)
| OStash (order : gmap bytes bytes -> list (bytes * bytes))
| ORevert
| OCommit (order : gmap bytes bytes -> list (bytes * bytes)).
Arguments OInsert {K V}. Arguments OStash {K V}. Arguments ORevert {K V}. Arguments OCommit {K V}.

Section Spec.
  Context {K V : Type} `{Countable K}.
  Definition spec_op (w : saves K V) (o : op K V) : saves K V :=
    match o with
    | OInsert k v => MkSaves (sv_committed w) (sv_stashed w) (<[k := v]> (sv_now w))
    | OStash _ => MkSaves (sv_committed w) (sv_now w) (sv_now w)
    | ORevert => MkSaves (sv_committed w) (sv_stashed w) (sv_stashed w)
    | OCommit _ => MkSaves (sv_stashed w) (sv_stashed w) (sv_now w)
    end.
  Definition spec_run (w : saves K V) (l : list (op K V)) : saves K V := fold_left spec_op l w.

  (** A real operation: orders enumerate the map, values are real buffers. *)
  Definition op_ok (s : schema K V) (o : op K V) : Prop :=
    match o with
    | OInsert _ v => fits (sc_eval s v)
    | OStash f | OCommit f => forall m, f m ≡ₚ map_to_list m
    | ORevert => True
    end.

  (** The byte-level adapter of the code under the same operations. *)
  Definition byte_op (s : schema K V) (a : badapter) (o : op K V) : badapter :=
    match o with
    | OInsert k v => ba_insert s a k v
    | OStash f => ba_stash_op (f (ba_cache a)) a
    | ORevert => ba_revert a
    | OCommit f => ba_commit_op (f (ba_stash a)) a
    end.
  Definition byte_run (s : schema K V) (a : badapter) (l : list (op K V)) : badapter := fold_left (byte_op s) l a.

  (** The typed adapter used by the executor model. *)
  Definition typed_op (a : adapter K V) (o : op K V) : adapter K V :=
    match o with
    | OInsert k v => ad_insert a k v
    | OStash _ => ad_stash_op (map_to_list (ad_cache a)) a
    | ORevert => ad_revert a
    | OCommit _ => ad_commit_op (map_to_list (ad_stash a)) a
    end.
  Definition typed_run (a : adapter K V) (l : list (op K V)) : adapter K V := fold_left typed_op l a.
End Spec.

Section Proofs.
  Context {K V : Type} `{Countable K} (s : schema K V) (Hs : good_schema s).

  Definition agree (w : saves K V) (a : adapter K V) : Prop :=
    sv_committed w = ad_trie a /\ sv_stashed w = durable a /\ sv_now w = view a.

  Lemma typed_agrees l : forall w a, agree w a -> agree (spec_run w l) (typed_run a l).
  Proof.
    induction l as [|o l IH]; intros w a A; cbn; [exact A|]. apply IH. destruct A as (E1 & E2 & E3).
    destruct o as [k v|f| |f]; unfold agree; cbn [spec_op typed_op sv_committed sv_stashed sv_now].
    - rewrite view_insert, durable_insert. auto. split; [exact E1|]. split; [exact E2|]. congruence.
    - rewrite durable_stash, view_stash by reflexivity. auto.
    - rewrite view_revert, durable_revert. auto.
    - rewrite trie_commit_op, view_commit by reflexivity. split; [exact E2|]. split; [|exact E3].
      unfold durable. rewrite trie_commit_op by reflexivity. cbn. rewrite (left_id_L ∅ (∪)). exact E2.
  Qed.

  Lemma byte_sims l : forall a b, sim s a b -> Forall (op_ok s) l -> sim s (typed_run a l) (byte_run s b l).
  Proof.
    induction l as [|o l IH]; intros a b S F; cbn; [exact S|]. apply Forall_cons in F as [F1 F2].
    apply IH; [|exact F2]. destruct o as [k v|f| |f]; cbn in *.
    - apply sim_insert; assumption.
    - apply sim_stash; [exact S|reflexivity|apply F1].
    - apply sim_revert, S.
    - apply sim_commit; [exact S|reflexivity|apply F1].
  Qed.

  Lemma image_det m b1 b2 : image s m b1 -> image s m b2 -> b1 = b2.
  Proof.
    intros (H1 & K1 & _) (H2 & K2 & _). apply map_eq. intros kb.
    destruct (b1 !! kb) as [v1|] eqn:E1.
    - destruct (K1 kb ltac:(eauto)) as [k ->]. rewrite H1 in E1. rewrite H2. congruence.
    - destruct (b2 !! kb) as [v2|] eqn:E2; [|reflexivity].
      destruct (K2 kb ltac:(eauto)) as [k ->]. rewrite H2 in E2. rewrite H1 in E1. congruence.
  Qed.

  Lemma byte_adapter_spec m l :
    map_Forall (fun _ v => fits (sc_eval s v)) m -> Forall (op_ok s) l ->
    let w := spec_run (MkSaves m m m) l in
    let b := byte_run s (ba_new (enc_map s m)) l in
    (forall k, ba_get s b k = Ok (sv_now w !! k)) /\
    (forall k, ba_contains s b k = bool_decide (is_Some (sv_now w !! k))) /\
    ba_trie b = enc_map s (sv_committed w).
  Proof.
    intros F FO w b.
    assert (A : agree w (typed_run (ad_new m) l)).
    { apply typed_agrees. unfold agree, view, durable; cbn. rewrite !(left_id_L ∅ (∪)). auto. }
    assert (S : sim s (typed_run (ad_new m) l) b).
    { apply byte_sims; [|exact FO]. apply sim_new, image_enc_map; assumption. }
    destruct A as (A1 & A2 & A3). split; [|split].
    - intros k. rewrite (sim_get s Hs _ _ _ S), ad_get_view, A3. reflexivity.
    - intros k. rewrite (sim_contains s _ _ _ S), ad_contains_view, A3.
      destruct (view _ !! k); symmetry; [apply bool_decide_eq_true_2; eauto|apply bool_decide_eq_false_2].
      intros [? ?]; discriminate.
    - destruct S as (ST & _ & _). rewrite A1. eapply image_det; [exact ST|].
      apply image_enc_map; [assumption|]. apply ST.
  Qed.

  Lemma typed_adapter_spec m l :
    map_Forall (fun _ v => fits (sc_eval s v)) m -> Forall (op_ok s) l ->
    let t := typed_run (ad_new m) l in
    let b := byte_run s (ba_new (enc_map s m)) l in
    (forall k, ba_get s b k = Ok (ad_get t k)) /\
    (forall k, ba_contains s b k = ad_contains t k) /\
    ba_trie b = enc_map s (ad_trie t).
  Proof.
    intros F FO t b.
    assert (S : sim s t b).
    { apply byte_sims; [|exact FO]. apply sim_new, image_enc_map; assumption. }
    split; [intros; apply sim_get; assumption|]. split; [intros; apply sim_contains; assumption|].
    destruct S as (ST & _ & _). eapply image_det; [exact ST|]. apply image_enc_map; [assumption|]. apply ST.
  Qed.
End Proofs.
