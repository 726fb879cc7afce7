(** * Sequences of operations on the sharded map, against one map. *)
From Verif Require Import Base BaseFacts Types TxMap TxMapFacts.
Local Open Scope N_scope.

Section Run.
  Context {V : Type}.

  (** [deletes] processes the buckets in an arbitrary order [is]. *)
  Inductive map_op :=
  | MInsertOp (h : hash) (v : V) | MContains (h : hash) | MGet (h : hash) | MRemove (h : hash)
  | MDeletes (order : list nat) (hs : list hash) | MLen | MClear.
  Inductive map_resp := AOpt (o : option V) | ABool (b : bool) | ANat (n : nat) | AUnit.

  Definition tm_step (m : tmap V) (o : map_op) : map_resp * tmap V :=
    match o with
    | MInsertOp h v => let (r, m') := tm_insert m h v in (AOpt r, m')
    | MContains h => (ABool (tm_contains m h), m)
    | MGet h => (AOpt (tm_get m h), m)
    | MRemove h => (AUnit, tm_remove m h)
    | MDeletes order hs => (AUnit, tm_deletes order m hs)
    | MLen => (ANat (tm_len m), m)
    | MClear => (AUnit, tm_clear m)
    end.

  (** One map. [insert] keeps a present key and hands the new value back. *)
  Definition one_step (m : gmap hash V) (o : map_op) : map_resp * gmap hash V :=
    match o with
    | MInsertOp h v => match m !! h with Some _ => (AOpt (Some v), m) | None => (AOpt None, <[h := v]> m) end
    | MContains h => (ABool (bool_decide (is_Some (m !! h))), m)
    | MGet h => (AOpt (m !! h), m)
    | MRemove h => (AUnit, delete h m)
    | MDeletes _ hs => (AUnit, fold_left (fun m h => delete h m) hs m)
    | MLen => (ANat (size m), m)
    | MClear => (AUnit, ∅)
    end.

  Fixpoint tm_run (m : tmap V) (l : list map_op) : list map_resp :=
    match l with [] => [] | o :: l' => let (r, m') := tm_step m o in r :: tm_run m' l' end.
  Fixpoint one_run (m : gmap hash V) (l : list map_op) : list map_resp :=
    match l with [] => [] | o :: l' => let (r, m') := one_step m o in r :: one_run m' l' end.

  (** The order visits real buckets and all those that have hashes to delete. *)
  Definition op_ok (o : map_op) : Prop :=
    match o with
    | MDeletes order hs => Forall (fun i => i < 16)%nat order /\ forall h, h ∈ hs -> get_index h ∈ order
    | _ => True
    end.

  Lemma step_flat m o : wf m -> op_ok o ->
    (tm_step m o).1 = (one_step (flat m) o).1 /\ wf (tm_step m o).2 /\ flat (tm_step m o).2 = (one_step (flat m) o).2.
  Proof.
    intros Hw Ho. destruct o as [h v|h|h|h|order hs| |]; cbn [tm_step one_step].
    - destruct (insert_flat m h v Hw) as (A & B & C). destruct (tm_insert m h v) as [r m']. cbn [fst snd] in *.
      destruct (flat m !! h); cbn [fst snd]; subst; auto.
    - rewrite (flat_lookup m h Hw). auto.
    - rewrite (flat_lookup m h Hw). auto.
    - destruct (remove_flat m h Hw). auto.
    - destruct Ho as [H1 H2]. destruct (deletes_flat order hs m Hw H1 H2) as [A B]. split; [reflexivity|]. auto.
    - rewrite (len_flat m Hw). auto.
    - destruct (clear_flat m Hw) as [A B]. auto.
  Qed.

  Lemma run_flat l : Forall op_ok l -> forall m, wf m -> tm_run m l = one_run (flat m) l.
  Proof.
    induction 1 as [|o l Ho Hl IH]; intros m Hw; [reflexivity|]. cbn [tm_run one_run].
    destruct (step_flat m o Hw Ho) as (A & B & C). destruct (tm_step m o) as [r m'], (one_step (flat m) o) as [r' m''].
    cbn [fst snd] in *. subst. rewrite IH by exact B. reflexivity.
  Qed.

  Lemma flat_new : flat (tm_new (V := V)) = ∅.
  Proof.
    apply flat_eq; [apply wf_new|]. intros h. unfold tm_get, bucket, tm_new. cbn [tm_buckets]. rewrite lookup_empty, nth_lookup.
    destruct (repeat ∅ 16 !! get_index h) as [b|] eqn:E; [|exact (lookup_empty (M := gmap hash) h)].
    apply elem_of_list_lookup_2, elem_of_list_In, repeat_spec in E. subst b. exact (lookup_empty (M := gmap hash) h).
  Qed.
End Run.
Arguments map_op V : clear implicits.
Arguments map_resp V : clear implicits.
