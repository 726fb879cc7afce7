(** * The sharded map behaves as one map. *)
From Verif Require Import Base BaseFacts Types TxMap.
Local Open Scope N_scope.

Section Facts.
  Context {V : Type}.
  Implicit Types m : tmap V.

  Definition wf m : Prop :=
    length (tm_buckets m) = 16%nat /\ forall i h v, bucket m i !! h = Some v -> get_index h = i.

  Lemma get_index_lt h : (get_index h < 16)%nat.
  Proof.
    unfold get_index. destruct (sbytes h) as [|b ?]; [lia|].
    pose proof (bN_lt b). rewrite N.shiftr_div_pow2.
    assert (bN b / 2 ^ 4 < 16) by (apply N.div_lt_upper_bound; lia). lia.
  Qed.

  Lemma bucket_set m i j b : (i < length (tm_buckets m))%nat ->
    bucket (set_bucket m i b) j = if decide (i = j) then b else bucket m j.
  Proof.
    intros Hi. unfold bucket, set_bucket. cbn. rewrite !nth_lookup. destruct (decide (i = j)) as [->|ne].
    - rewrite list_lookup_insert by assumption. reflexivity.
    - rewrite list_lookup_insert_ne by assumption. reflexivity.
  Qed.
  Lemma len_set m i b : length (tm_buckets (set_bucket m i b)) = length (tm_buckets m).
  Proof. cbn. apply insert_length. Qed.

  (** The one map a sharded map stands for. *)
  Definition flat m : gmap hash V := ⋃ (tm_buckets m).

  Lemma union_some (l : list (gmap hash V)) h v : (⋃ l : gmap hash V) !! h = Some v -> exists b, b ∈ l /\ b !! h = Some v.
  Proof.
    induction l as [|b l IH]; cbn; [rewrite lookup_empty; discriminate|].
    intros H. apply lookup_union_Some_raw in H as [H|[_ H]].
    - exists b. split; [left|exact H].
    - destruct (IH H) as (b' & ? & ?). exists b'. split; [right|]; assumption.
  Qed.
  Lemma union_is_some (l : list (gmap hash V)) h b v : b ∈ l -> b !! h = Some v -> is_Some ((⋃ l : gmap hash V) !! h).
  Proof.
    intros Hb Hv. induction Hb as [b l|b b' l Hb IH]; cbn; rewrite lookup_union_is_Some; [left; eauto|right; auto].
  Qed.

  Lemma flat_lookup m h : wf m -> flat m !! h = tm_get m h.
  Proof.
    intros [Hl Hw]. unfold flat, tm_get.
    assert (Hn : forall i, (i < 16)%nat -> tm_buckets m !! i = Some (bucket m i)).
    { intros i Hi. unfold bucket. rewrite nth_lookup.
      destruct (tm_buckets m !! i) eqn:E; [reflexivity|]. apply lookup_ge_None in E. lia. }
    destruct ((⋃ tm_buckets m) !! h) as [v|] eqn:E.
    - destruct (union_some _ _ _ E) as (b & Hb & Hv). apply elem_of_list_lookup in Hb as [i Hi].
      assert (i < 16)%nat by (rewrite <- Hl; eapply lookup_lt_Some, Hi).
      rewrite (Hn i) in Hi by assumption. injection Hi as <-. rewrite <- (Hw i h v Hv) in Hv. symmetry. exact Hv.
    - destruct (bucket m (get_index h) !! h) as [v|] eqn:F; [|reflexivity].
      destruct (union_is_some (tm_buckets m) h (bucket m (get_index h)) v) as [w Hw']; [|exact F|congruence].
      apply elem_of_list_lookup. exists (get_index h). apply Hn, get_index_lt.
  Qed.

  Lemma wf_new : wf (tm_new (V := V)).
  Proof.
    split; [reflexivity|]. intros i h v. unfold bucket, tm_new. cbn [tm_buckets].
    rewrite nth_lookup. destruct (repeat ∅ 16 !! i) as [b|] eqn:E.
    - apply elem_of_list_lookup_2, elem_of_list_In, repeat_spec in E. subst b. cbn.
      rewrite lookup_empty. discriminate.
    - cbn. rewrite lookup_empty. discriminate.
  Qed.

  Lemma wf_set m i b : wf m -> (i < 16)%nat -> (forall h v, b !! h = Some v -> get_index h = i) ->
    wf (set_bucket m i b).
  Proof.
    intros [Hl Hw] Hi Hb. split; [rewrite len_set; exact Hl|]. intros j h v.
    rewrite bucket_set by lia. destruct (decide (i = j)) as [<-|]; [apply Hb|apply Hw].
  Qed.

  Lemma get_set m i b h : wf m -> (i < 16)%nat ->
    tm_get (set_bucket m i b) h = if decide (i = get_index h) then b !! h else tm_get m h.
  Proof.
    intros [Hl _] Hi. unfold tm_get. rewrite bucket_set by lia. destruct (decide _); reflexivity.
  Qed.

  Lemma flat_eq m f : wf m -> (forall h, tm_get m h = f !! h) -> flat m = f.
  Proof. intros Hw H. apply map_eq. intros h. rewrite flat_lookup by exact Hw. apply H. Qed.

  Lemma insert_flat m h v : wf m ->
    fst (tm_insert m h v) = (if flat m !! h then Some v else None) /\
    wf (snd (tm_insert m h v)) /\
    flat (snd (tm_insert m h v)) = (if flat m !! h then flat m else <[h := v]> (flat m)).
  Proof.
    intros Hw. rewrite flat_lookup by exact Hw. unfold tm_insert. unfold tm_get at 1 2.
    destruct (bucket m (get_index h) !! h) as [w|] eqn:E; cbn [fst snd]; [auto|].
    assert (Hw' : wf (set_bucket m (get_index h) (<[h := v]> (bucket m (get_index h))))).
    { apply wf_set; [exact Hw|apply get_index_lt|]. intros k u Hk. apply lookup_insert_Some in Hk as [[<- _]|[_ Hk]]; [reflexivity|].
      eapply (proj2 Hw), Hk. }
    split; [reflexivity|]. split; [exact Hw'|]. apply flat_eq; [exact Hw'|]. intros k.
    rewrite get_set by (try exact Hw; apply get_index_lt).
    destruct (decide (h = k)) as [->|ne].
    - rewrite decide_True by reflexivity. rewrite !lookup_insert. reflexivity.
    - rewrite !lookup_insert_ne by exact ne. rewrite flat_lookup by exact Hw.
      destruct (decide _) as [e|]; [|reflexivity]. unfold tm_get. rewrite e. reflexivity.
  Qed.

  Lemma bucket_deletes_lookup (b : gmap hash V) hs h :
    bucket_deletes b hs !! h = if decide (h ∈ hs) then None else b !! h.
  Proof.
    unfold bucket_deletes. revert b. induction hs as [|k hs IH]; intros b; cbn.
    - rewrite decide_False by (intros X; inversion X). reflexivity.
    - rewrite IH. destruct (decide (h ∈ hs)) as [Hin|Hin].
      + rewrite decide_True by (right; exact Hin). reflexivity.
      + destruct (decide (h = k)) as [->|ne].
        * rewrite decide_True by left. apply lookup_delete.
        * rewrite decide_False by (intros X; apply elem_of_cons in X as [?|?]; contradiction).
          apply lookup_delete_ne. congruence.
  Qed.

  Lemma remove_flat m h : wf m -> wf (tm_remove m h) /\ flat (tm_remove m h) = delete h (flat m).
  Proof.
    intros Hw. unfold tm_remove.
    assert (Hw' : wf (set_bucket m (get_index h) (delete h (bucket m (get_index h))))).
    { apply wf_set; [exact Hw|apply get_index_lt|]. intros k u Hk. apply lookup_delete_Some in Hk as [_ Hk].
      eapply (proj2 Hw), Hk. }
    split; [exact Hw'|]. apply flat_eq; [exact Hw'|]. intros k. rewrite get_set by (try exact Hw; apply get_index_lt).
    destruct (decide (h = k)) as [->|ne].
    - rewrite decide_True by reflexivity. rewrite !lookup_delete. reflexivity.
    - rewrite !lookup_delete_ne by exact ne. rewrite flat_lookup by exact Hw.
      destruct (decide _) as [e|]; [|reflexivity]. unfold tm_get. rewrite e. reflexivity.
  Qed.

  Lemma deletes_get is hs : Forall (fun i => i < 16)%nat is -> forall m, wf m ->
    wf (tm_deletes is m hs) /\
    forall h, tm_get (tm_deletes is m hs) h = if decide (h ∈ hs /\ get_index h ∈ is) then None else tm_get m h.
  Proof.
    unfold tm_deletes. induction 1 as [|i is Hi His IH]; intros m Hw; cbn [fold_left].
    - split; [exact Hw|]. intros h. rewrite decide_False; [reflexivity|]. intros [_ X]. inversion X.
    - set (b := bucket_deletes _ _).
      assert (Hb : forall h, b !! h = if decide (h ∈ hs /\ get_index h = i) then None else bucket m i !! h).
      { intros h. unfold b. rewrite bucket_deletes_lookup. apply decide_ext. rewrite elem_of_list_filter. tauto. }
      assert (Hw' : wf (set_bucket m i b)).
      { apply wf_set; [exact Hw|exact Hi|]. intros h v Hv. rewrite Hb in Hv.
        destruct (decide _); [discriminate|]. eapply (proj2 Hw), Hv. }
      destruct (IH _ Hw') as [H1 H2]. split; [exact H1|]. intros h. rewrite H2, get_set by assumption.
      destruct (decide (i = get_index h)) as [->|ne].
      + rewrite Hb. unfold tm_get.
        destruct (decide (h ∈ hs /\ get_index h ∈ is)); destruct (decide (h ∈ hs /\ get_index h = get_index h));
          destruct (decide (h ∈ hs /\ get_index h ∈ get_index h :: is)); try reflexivity; exfalso;
          rewrite ?elem_of_cons in *; tauto.
      + apply decide_ext. rewrite elem_of_cons. split; [tauto|]. intros [? [?|?]]; [congruence|tauto].
  Qed.

  Lemma deletes_flat is hs m : wf m -> Forall (fun i => i < 16)%nat is -> (forall h, h ∈ hs -> get_index h ∈ is) ->
    wf (tm_deletes is m hs) /\ flat (tm_deletes is m hs) = bucket_deletes (flat m) hs.
  Proof.
    intros Hw His Hc. destruct (deletes_get is hs His m Hw) as [H1 H2]. split; [exact H1|].
    apply flat_eq; [exact H1|]. intros h. rewrite H2, bucket_deletes_lookup, flat_lookup by exact Hw.
    apply decide_ext. split; [tauto|]. intros Hh. auto.
  Qed.

  Lemma clear_flat m : wf m -> wf (tm_clear m) /\ flat (tm_clear m) = ∅.
  Proof.
    intros [Hl Hw].
    assert (Hb : forall i, bucket (tm_clear m) i = ∅).
    { intros i. unfold bucket, tm_clear. cbn. rewrite nth_lookup, list_lookup_fmap.
      destruct (tm_buckets m !! i); reflexivity. }
    assert (Hw' : wf (tm_clear m)).
    { split; [cbn; rewrite map_length; exact Hl|]. intros i h v. rewrite Hb, lookup_empty. discriminate. }
    split; [exact Hw'|]. apply flat_eq; [exact Hw'|]. intros h. unfold tm_get. rewrite Hb, !lookup_empty. reflexivity.
  Qed.

  Lemma len_flat m : wf m -> tm_len m = size (flat m).
  Proof.
    intros [Hl Hw]. unfold tm_len, flat.
    assert (Hd : forall i j h v w, (i < j)%nat -> bucket m i !! h = Some v -> bucket m j !! h = Some w -> False).
    { intros i j h v w Hij H1 H2. apply Hw in H1, H2. lia. }
    assert (G : forall l k n, (forall i b, l !! i = Some b -> b = bucket m (k + i)) ->
              fold_left (fun n (b : gmap hash V) => (n + size b)%nat) l n = (n + size (⋃ l : gmap hash V))%nat).
    { induction l as [|b l IH]; intros k n Hb.
      - cbn. rewrite map_size_empty. lia.
      - cbn [fold_left]. change (⋃ (b :: l)) with (b ∪ ⋃ l).
        rewrite (IH (S k)).
        + rewrite map_size_disj_union; [lia|]. apply map_disjoint_spec. intros h v w H1 H2.
          assert (E : exists j b', l !! j = Some b' /\ is_Some (b' !! h)).
          { clear -H2. revert H2. induction l as [|b' l IHl]; cbn; [rewrite lookup_empty; discriminate|].
            intros H. apply lookup_union_Some_raw in H as [H|[_ H]].
            - exists 0%nat, b'. split; [reflexivity|eauto].
            - destruct (IHl H) as (j & b'' & ? & ?). exists (S j), b''. auto. }
          destruct E as (j & b' & Hj & [w' Hw']).
          pose proof (Hb 0%nat b eq_refl) as E0. pose proof (Hb (S j) b' Hj) as E1. subst b b'.
          apply (Hd (k + 0)%nat (k + S j)%nat h v w'); [lia|assumption|assumption].
        + intros i b' Hi. rewrite (Hb (S i) b' Hi). f_equal. lia. }
    rewrite (G _ 0%nat); [lia|]. intros i b Hi. unfold bucket. rewrite nth_lookup, Nat.add_0_l, Hi. reflexivity.
  Qed.
End Facts.
