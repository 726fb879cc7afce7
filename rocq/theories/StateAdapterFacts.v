(** * Lemmas about the state adapters. *)
From Verif Require Import Base BaseFacts Types Rlp RlpFacts FixedCodec FixedCodecFacts CodecProps StateAdapter.
From Coq Require Import Permutation.
Local Open Scope N_scope.

Section InsertAll.
  Context {K V : Type} `{Countable K}.

  Lemma insert_all_union (l : list (K * V)) m :
    NoDup l.*1 -> insert_all l m = list_to_map l ∪ m.
  Proof.
    revert m. unfold insert_all. induction l as [|[k v] l IH]; intros m Hnd; cbn [fold_left fst snd].
    - cbn. rewrite (left_id_L ∅ (∪)). reflexivity.
    - apply NoDup_cons in Hnd as [Hk Hnd]. rewrite IH by assumption.
      rewrite list_to_map_cons, <- insert_union_l. rewrite insert_union_r.
      + reflexivity.
      + apply not_elem_of_list_to_map. exact Hk.
  Qed.

  Lemma insert_all_perm (l : list (K * V)) (m t : gmap K V) :
    l ≡ₚ map_to_list m -> insert_all l t = m ∪ t.
  Proof.
    intros Hp.
    assert (NoDup l.*1) as Hnd.
    { rewrite Hp. apply NoDup_fst_map_to_list. }
    rewrite insert_all_union by assumption.
    f_equal. rewrite <- (list_to_map_to_list m).
    apply list_to_map_proper; assumption.
  Qed.
End InsertAll.

(** ** Layered view *)
Section View.
  Context {K V : Type} `{Countable K}.
  Implicit Types a : adapter K V.

  (** what survives a revert *)
  Definition durable a : gmap K V := ad_stash a ∪ ad_trie a.
  (** what [get] sees *)
  Definition view a : gmap K V := ad_cache a ∪ durable a.

  Lemma ad_get_view a k : ad_get a k = view a !! k.
  Proof.
    unfold ad_get, view, durable. rewrite !lookup_union.
    destruct (ad_cache a !! k); cbn; [destruct (ad_stash a !! k), (ad_trie a !! k); reflexivity|].
    destruct (ad_stash a !! k), (ad_trie a !! k); reflexivity.
  Qed.

  Lemma ad_contains_view a k : ad_contains a k = match view a !! k with Some _ => true | None => false end.
  Proof.
    rewrite <- ad_get_view. unfold ad_contains, ad_get.
    destruct (ad_cache a !! k); [reflexivity|].
    destruct (ad_stash a !! k); reflexivity.
  Qed.

  Lemma view_insert a k v : view (ad_insert a k v) = <[k := v]> (view a).
  Proof. unfold view, ad_insert; cbn. rewrite insert_union_l. reflexivity. Qed.
  Lemma durable_insert a k v : durable (ad_insert a k v) = durable a.
  Proof. reflexivity. Qed.

  Lemma view_revert a : view (ad_revert a) = durable a.
  Proof. unfold view, ad_revert, durable; cbn. rewrite (left_id_L ∅ (∪)). reflexivity. Qed.
  Lemma durable_revert a : durable (ad_revert a) = durable a.
  Proof. reflexivity. Qed.

  Lemma durable_stash l a : l ≡ₚ map_to_list (ad_cache a) -> durable (ad_stash_op l a) = view a.
  Proof.
    intros Hl. unfold durable, view, ad_stash_op; cbn. rewrite (insert_all_perm _ _ _ Hl).
    symmetry. apply (assoc_L (∪)).
  Qed.
  Lemma view_stash l a : l ≡ₚ map_to_list (ad_cache a) -> view (ad_stash_op l a) = view a.
  Proof.
    intros Hl. unfold view at 1. rewrite (durable_stash _ _ Hl). cbn. apply (left_id_L ∅ (∪)).
  Qed.
  Lemma trie_commit_op l a :
    l ≡ₚ map_to_list (ad_stash a) -> ad_trie (ad_commit_op l a) = durable a.
  Proof. intros Hl. unfold ad_commit_op; cbn. apply (insert_all_perm _ _ _ Hl). Qed.
  Lemma view_commit l a : l ≡ₚ map_to_list (ad_stash a) -> view (ad_commit_op l a) = view a.
  Proof.
    intros Hl. unfold view, durable. rewrite (trie_commit_op _ _ Hl). cbn.
    unfold durable. rewrite (left_id_L ∅ (∪)). reflexivity.
  Qed.
End View.

(** ** Typed and byte level agree *)
Definition good_schema {K V} (s : schema K V) : Prop :=
  (forall k, sc_dkey s (sc_ekey s k) = Ok k) /\
  (forall v, fits (sc_eval s v) -> sc_dval s (sc_eval s v) = Ok v).

Lemma good_account_schema : good_schema account_schema.
Proof. split; [exact dec_enc_address | exact dec_enc_account]. Qed.
Lemma good_asset_schema : good_schema asset_schema.
Proof. split; [exact dec_enc_hash | exact dec_enc_asset]. Qed.

Section Sim.
  Context {K V : Type} `{Countable K} (s : schema K V) (Hs : good_schema s).

  Lemma ekey_inj k1 k2 : sc_ekey s k1 = sc_ekey s k2 -> k1 = k2.
  Proof.
    intros E. destruct Hs as [Hk _]. pose proof (Hk k1) as H1. rewrite E, Hk in H1. congruence.
  Qed.

  (** [b] is the byte image of the typed map [m], all values being buffers of
      the real program. *)
  Definition image (m : gmap K V) (b : gmap bytes bytes) : Prop :=
    (forall k, b !! sc_ekey s k = sc_eval s <$> m !! k) /\
    (forall kb, is_Some (b !! kb) -> exists k, kb = sc_ekey s k) /\
    map_Forall (fun _ v => fits (sc_eval s v)) m.

  Definition sim (a : adapter K V) (b : badapter) : Prop :=
    image (ad_trie a) (ba_trie b) /\ image (ad_cache a) (ba_cache b) /\
    image (ad_stash a) (ba_stash b).

  Lemma image_empty : image ∅ ∅.
  Proof.
    split; [|split].
    - intros k. rewrite !lookup_empty. reflexivity.
    - intros kb [v Hv]. rewrite lookup_empty in Hv. discriminate.
    - apply map_Forall_empty.
  Qed.

  Lemma image_insert m b k v :
    image m b -> fits (sc_eval s v) -> image (<[k := v]> m) (<[sc_ekey s k := sc_eval s v]> b).
  Proof.
    intros (H1 & H2 & H3) Hf. split; [|split].
    - intros k'. destruct (decide (k = k')) as [->|Hne].
      + rewrite !lookup_insert. reflexivity.
      + rewrite !lookup_insert_ne; [apply H1| exact Hne | intros E; apply Hne, ekey_inj, E].
    - intros kb. destruct (decide (kb = sc_ekey s k)) as [->|Hne]; [eauto|].
      rewrite lookup_insert_ne by congruence. apply H2.
    - apply map_Forall_insert_2; assumption.
  Qed.

  Lemma image_union m1 b1 m2 b2 : image m1 b1 -> image m2 b2 -> image (m1 ∪ m2) (b1 ∪ b2).
  Proof.
    intros (H1 & H2 & H3) (H4 & H5 & H6). split; [|split].
    - intros k. rewrite !lookup_union, H1, H4. destruct (m1 !! k), (m2 !! k); reflexivity.
    - intros kb [v Hv]. apply lookup_union_Some_raw in Hv as [Hv|[_ Hv]]; [apply H2|apply H5]; eauto.
    - intros k v Hv. apply lookup_union_Some_raw in Hv as [Hv|[_ Hv]]; [eapply H3|eapply H6]; eauto.
  Qed.

  Lemma sim_new t b : image t b -> sim (ad_new t) (ba_new b).
  Proof. intros Ht. split; [exact Ht|split; apply image_empty]. Qed.

  Lemma sim_get a b k : sim a b -> ba_get s b k = Ok (ad_get a k).
  Proof.
    intros ((T1 & _ & T3) & (C1 & _ & C3) & (S1 & _ & S3)). unfold ba_get, ad_get.
    rewrite C1, S1, T1. destruct Hs as [_ Hv].
    destruct (ad_cache a !! k) eqn:E1; cbn; [rewrite Hv by (eapply C3; eauto); reflexivity|].
    destruct (ad_stash a !! k) eqn:E2; cbn; [rewrite Hv by (eapply S3; eauto); reflexivity|].
    destruct (ad_trie a !! k) eqn:E3; cbn; [rewrite Hv by (eapply T3; eauto); reflexivity|].
    reflexivity.
  Qed.

  Lemma sim_contains a b k : sim a b -> ba_contains s b k = ad_contains a k.
  Proof.
    intros ((T1 & _ & T3) & (C1 & _ & C3) & (S1 & _ & S3)). unfold ba_contains, ad_contains.
    rewrite C1, S1, T1.
    destruct (ad_cache a !! k), (ad_stash a !! k), (ad_trie a !! k); reflexivity.
  Qed.

  Lemma sim_insert a b k v :
    sim a b -> fits (sc_eval s v) -> sim (ad_insert a k v) (ba_insert s b k v).
  Proof.
    intros (T & C & S) Hf. split; [exact T|split; [|exact S]]. apply image_insert; assumption.
  Qed.

  Lemma sim_revert a b : sim a b -> sim (ad_revert a) (ba_revert b).
  Proof. intros (T & C & S). split; [exact T|split; [apply image_empty|exact S]]. Qed.

  Lemma sim_stash a b l lb :
    sim a b -> l ≡ₚ map_to_list (ad_cache a) -> lb ≡ₚ map_to_list (ba_cache b) ->
    sim (ad_stash_op l a) (ba_stash_op lb b).
  Proof.
    intros (T & C & S) Hl Hlb. split; [exact T|split; [apply image_empty|]]. cbn.
    rewrite (insert_all_perm _ _ _ Hl), (insert_all_perm _ _ _ Hlb). apply image_union; assumption.
  Qed.

  Lemma sim_commit a b l lb :
    sim a b -> l ≡ₚ map_to_list (ad_stash a) -> lb ≡ₚ map_to_list (ba_stash b) ->
    sim (ad_commit_op l a) (ba_commit_op lb b).
  Proof.
    intros (T & C & S) Hl Hlb. split; [|split; [exact C|apply image_empty]]. cbn.
    rewrite (insert_all_perm _ _ _ Hl), (insert_all_perm _ _ _ Hlb). apply image_union; assumption.
  Qed.

  (** [enc_map] is the byte image, and [dec_map] reads it back. *)
  Lemma enc_pairs_nodup (l : list (K * V)) :
    NoDup l.*1 -> NoDup (map (fun kv => (sc_ekey s kv.1, sc_eval s kv.2)) l).*1.
  Proof.
    intros Hnd. rewrite <- list_fmap_compose.
    assert (E : (fst ∘ (fun kv : K * V => (sc_ekey s kv.1, sc_eval s kv.2))) <$> l = sc_ekey s <$> l.*1).
    { rewrite <- list_fmap_compose. reflexivity. }
    rewrite E. apply NoDup_fmap_2_strong; [|exact Hnd]. intros x y _ _. apply ekey_inj.
  Qed.

  Lemma image_enc_map m : map_Forall (fun _ v => fits (sc_eval s v)) m -> image m (enc_map s m).
  Proof.
    intros Hf. unfold enc_map.
    assert (Hnd : NoDup (map (fun kv => (sc_ekey s kv.1, sc_eval s kv.2)) (map_to_list m)).*1).
    { apply enc_pairs_nodup, NoDup_fst_map_to_list. }
    split; [|split; [|exact Hf]].
    - intros k. destruct (m !! k) as [v|] eqn:E; cbn.
      + apply elem_of_list_to_map; [exact Hnd|]. apply elem_of_list_fmap. exists (k, v).
        split; [reflexivity|]. apply elem_of_map_to_list, E.
      + apply not_elem_of_list_to_map. intros Hin. rewrite <- list_fmap_compose in Hin.
        apply elem_of_list_fmap in Hin as ([k' v'] & E1 & E2). cbn in E1. apply ekey_inj in E1 as <-.
        apply elem_of_map_to_list in E2. congruence.
    - intros kb [v Hv]. apply elem_of_list_to_map in Hv; [|exact Hnd].
      apply elem_of_list_fmap in Hv as ([k' v'] & E1 & E2). injection E1 as -> ->. eauto.
  Qed.

  Lemma image_inj m1 m2 b : image m1 b -> image m2 b -> m1 = m2.
  Proof.
    intros (H1 & _ & H3) (H4 & _ & H6). apply map_eq. intros k.
    pose proof (H1 k) as E. rewrite H4 in E. destruct Hs as [_ Hv].
    destruct (m1 !! k) as [v1|] eqn:E1, (m2 !! k) as [v2|] eqn:E2; cbn in E; try congruence.
    injection E as E. pose proof (Hv v1 ltac:(eapply H3; eauto)) as D1.
    pose proof (Hv v2 ltac:(eapply H6; eauto)) as D2. congruence.
  Qed.

  Lemma enc_map_inj m1 m2 :
    map_Forall (fun _ v => fits (sc_eval s v)) m1 -> map_Forall (fun _ v => fits (sc_eval s v)) m2 ->
    enc_map s m1 = enc_map s m2 -> m1 = m2.
  Proof.
    intros F1 F2 E. pose proof (image_enc_map _ F1) as I1. rewrite E in I1.
    eapply image_inj; [exact I1|]. apply image_enc_map, F2.
  Qed.

  Lemma dec_entries_ok (l : list (bytes * bytes)) (lt : list (K * V)) :
    l = map (fun kv => (sc_ekey s kv.1, sc_eval s kv.2)) lt ->
    Forall (fun kv => fits (sc_eval s kv.2)) lt -> dec_entries s l = Ok lt.
  Proof.
    intros -> Hf. destruct Hs as [Hk Hv].
    induction lt as [|[k v] lt IH]; [reflexivity|]. apply Forall_cons in Hf as [F1 F2]. cbn in *.
    rewrite Hk, Hv, IH by assumption. reflexivity.
  Qed.

  Lemma dec_enc_map m :
    map_Forall (fun _ v => fits (sc_eval s v)) m -> dec_map s (enc_map s m) = Ok m.
  Proof.
    intros Hf. unfold dec_map.
    assert (Hnd : NoDup (map (fun kv => (sc_ekey s kv.1, sc_eval s kv.2)) (map_to_list m)).*1).
    { apply enc_pairs_nodup, NoDup_fst_map_to_list. }
    pose proof (map_to_list_to_map _ Hnd) as Hp. fold (enc_map s m) in Hp.
    apply Permutation_map_inv in Hp as (lt & E & Hp).
    rewrite (dec_entries_ok _ lt E).
    - cbn. f_equal. rewrite <- (list_to_map_to_list m). symmetry. apply list_to_map_proper; [|exact Hp].
      apply NoDup_fst_map_to_list.
    - rewrite <- Hp. apply map_Forall_to_list in Hf. eapply Forall_impl; [exact Hf|].
      intros [k v]; cbn; auto.
  Qed.
End Sim.
