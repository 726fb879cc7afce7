(** * The trie of a map. *)
From Verif Require Import Base BaseFacts Types Rlp RlpFacts Mpt MptFacts MptDen MptCodec StorageSpec MptStore TrieSpec.
Local Open Scope nat_scope.

(** ** Keys *)
Lemma to_nibs_low b : low (to_nibs b).
Proof.
  induction b as [|x b IH]; [constructor|]. cbn [to_nibs flat_map app]. pose proof (bN_lt x) as Hx. apply low_cons. split; [|apply low_cons; split; [|exact IH]].
  - enough (bN x / 16 < 16)%N by lia. apply N.div_lt_upper_bound; lia.
  - enough (bN x mod 16 < 16)%N by lia. apply N.mod_lt. lia.
Qed.
Lemma to_nibs_inj a : forall b, to_nibs a = to_nibs b -> a = b.
Proof.
  induction a as [|x a IH]; intros [|y b] E; cbn [to_nibs flat_map app] in E; [reflexivity|discriminate|discriminate|].
  injection E as E1 E2 E3. f_equal; [|apply IH, E3]. apply bN_inj. rewrite (N.div_mod (bN x) 16), (N.div_mod (bN y) 16) by lia.
  apply N2Nat.inj in E1, E2. rewrite E1, E2. reflexivity.
Qed.
Lemma key_kp k : kp (key_nibs k).
Proof. exists (to_nibs k). split; [reflexivity|apply to_nibs_low]. Qed.
Lemma key_inj a b : key_nibs a = key_nibs b -> a = b.
Proof. unfold key_nibs. intros E. apply app_inj_tail in E as [E _]. apply to_nibs_inj, E. Qed.
Lemma to_nibs_len k : length (to_nibs k) = 2 * length k.
Proof. induction k as [|x k IH]; [reflexivity|]. cbn [to_nibs flat_map app length]. unfold to_nibs in IH. lia. Qed.
Lemma key_len k : length (key_nibs k) = 2 * length k + 1.
Proof. unfold key_nibs. rewrite app_length, to_nibs_len. reflexivity. Qed.

(** ** The tree of a map *)
Definition rep (t : node) (m : gmap bytes bytes) : Prop :=
  wf t /\ (forall k, look t (key_nibs k) = m !! k) /\ (forall p v, kp p -> look t p = Some v -> exists k, p = key_nibs k).
Lemma rep_unique t u m : rep t m -> rep u m -> t = u.
Proof.
  intros (Hw & Hl & Hk) (Hw' & Hl' & Hk'). apply look_unique; [exact Hw|exact Hw'|]. intros p Hp.
  destruct (look t p) as [v|] eqn:E.
  - destruct (Hk p v Hp E) as (k & ->). rewrite Hl' , <- Hl. symmetry. exact E.
  - destruct (look u p) as [v|] eqn:E'; [|reflexivity]. destruct (Hk' p v Hp E') as (k & ->). rewrite Hl in E. rewrite Hl', E in E'. discriminate.
Qed.
Lemma rep_same t m m' : rep t m -> rep t m' -> m = m'.
Proof. intros (_ & H & _) (_ & H' & _). apply map_eq. intros k. rewrite <- H, <- H'. reflexivity. Qed.
Lemma rep_empty : rep Empty ∅.
Proof. split; [exact I|]. split; [intros k; rewrite lookup_empty; reflexivity|]. intros p v _ H. discriminate H. Qed.

Section Facts.
  Context (digest : bytes -> hash).
  Notation den := (den digest).
  Notation shape := (shape digest).
  Notation enc := (enc digest).
  Notation writes := (writes digest).
  Notation held := (held digest).
  Notation parts := (parts digest).
  Implicit Types (db : gmap hash bytes) (m : gmap bytes bytes).

  Lemma insert_not_hash f db n p v n' : insert_at f db n p v = Some n' -> forall h, n' <> HashN h.
  Proof.
    assert (forall q i a j b h, prefixed q (fork i a j b) <> HashN h) as Hp.
    { intros q i a j b h E. unfold fork in E. destruct (bput i a no_children None) as [c1 v1]. destruct (bput j b c1 v1). destruct q; discriminate E. }
    destruct f as [|f]; [discriminate|]. cbn [insert_at]. intros E h ->.
    destruct (resolve db n) as [[|k w|k c|cs w|h']|]; try discriminate E.
    - cbv zeta in E. destruct (_ =? _); [discriminate|]. destruct (drop _ k) as [|i k1], (drop _ p) as [|j p1]; try discriminate E.
      cbn [split_leaf option_map] in E. injection E as E. exact (Hp _ _ _ _ _ _ E).
    - cbv zeta in E. destruct (_ =? _); [destruct (insert_at _ _ _ _ _); discriminate E|].
      destruct (drop _ k) as [|i k1], (drop _ p) as [|j p1]; try discriminate E.
      cbn [split_ext option_map] in E. injection E as E. exact (Hp _ _ _ _ _ _ E).
    - destruct p as [|i p]; [discriminate|]. destruct (_ =? _); [discriminate|]. destruct (nth_error cs i); [|discriminate].
      destruct (insert_at _ _ _ _ _); discriminate E.
  Qed.
  Lemma den_shape_here db t n : den db t n -> (forall h, n <> HashN h) -> shape db t n.
  Proof. intros H Hn. apply den_shape in H as (n0 & [->|(d & -> & _)] & Hs); [exact Hs|]. destruct (Hn _ eq_refl). Qed.

  Lemma get_rep db n t m k : shape db t n -> rep t m -> tr_get db n k = Some (m !! k).
  Proof.
    intros Hs (Hw & Hl & _). unfold tr_get. rewrite (get_spec digest db _ n t); [rewrite Hl; reflexivity|apply den_self, Hs|exact Hw|apply key_kp|lia].
  Qed.
  Lemma insert_rep db n t m k v : shape db t n -> rep t m -> v <> [] ->
    exists n' t', tr_insert db n k v = Some n' /\ shape db t' n' /\ rep t' (<[k := v]> m).
  Proof.
    intros Hs (Hw & Hl & Hk) Hv.
    destruct (insert_spec digest db (S (length (key_nibs k))) n t (key_nibs k) v) as (n' & t' & E & Hd & Hw' & _ & _ & Hlk);
      [apply den_self, Hs|exact Hw|apply key_kp|lia|exact Hv|].
    exists n', t'. split; [unfold tr_insert; destruct v; [congruence|exact E]|]. split; [apply den_shape_here; [exact Hd|exact (insert_not_hash _ _ _ _ _ _ E)]|].
    split; [exact Hw'|]. split.
    - intros k'. rewrite (Hlk _ (key_kp k')). destruct (decide (key_nibs k' = key_nibs k)) as [Ek|Ek].
      + apply key_inj in Ek as ->. rewrite lookup_insert. reflexivity.
      + rewrite lookup_insert_ne by (intros ->; apply Ek; reflexivity). apply Hl.
    - intros p w Hp E'. rewrite (Hlk p Hp) in E'. destruct (decide (p = key_nibs k)) as [->|_]; [eauto|]. exact (Hk p w Hp E').
  Qed.
  Lemma inserts_rep db l : forall n t m, shape db t n -> rep t m -> Forall (fun kv : bytes * bytes => kv.2 <> []) l ->
    exists n' t', inserts db l n = Some n' /\ shape db t' n' /\ rep t' (fold_left (fun m kv => <[kv.1 := kv.2]> m) l m).
  Proof.
    induction l as [|[k v] l IH]; intros n t m Hs Hr Hf; [exists n, t; auto|].
    destruct (insert_rep db n t m k v Hs Hr (Forall_inv Hf)) as (n1 & t1 & E & Hs1 & Hr1).
    destruct (IH n1 t1 _ Hs1 Hr1 (Forall_inv_tail Hf)) as (n' & t' & E' & Hs' & Hr').
    exists n', t'. split; [|split; [exact Hs'|exact Hr']]. unfold inserts. cbn [fold_left fst snd]. rewrite E. exact E'.
  Qed.
  Lemma fold_inserts (l : list (bytes * bytes)) m : fold_left (fun m kv => <[kv.1 := kv.2]> m) l m = list_to_map (rev l) ∪ m.
  Proof.
    revert m. induction l as [|[k v] l IH]; intros m; [cbn; rewrite (left_id_L ∅ _); reflexivity|]. cbn [fold_left fst snd rev]. rewrite IH, list_to_map_app.
    cbn [list_to_map foldr]. rewrite <- (assoc_L (∪)). f_equal. cbn. rewrite <- insert_union_l, (left_id_L ∅ _). reflexivity.
  Qed.
  Lemma fold_map m : fold_left (fun m kv => <[kv.1 := kv.2]> m) (map_to_list m) ∅ = m.
  Proof.
    rewrite fold_inserts, (right_id_L ∅ _). symmetry. apply list_to_map_flip. symmetry. apply Permutation_sym, Permutation_rev.
  Qed.
  Definition solid m : Prop := map_Forall (fun _ v => v <> []) m.
  Lemma tree_rep m : solid m -> rep (tree_of m) m.
  Proof.
    intros Hm. destruct (inserts_rep ∅ (map_to_list m) Empty Empty ∅) as (n & t & E & Hs & Hr); [exact I|apply rep_empty| |].
    - apply Forall_forall. intros [k v] H. apply elem_of_map_to_list in H. exact (Hm k v H).
    - unfold tree_of. rewrite E. rewrite (den_empty digest t n) by (apply den_self, Hs). rewrite fold_map in Hr. exact Hr.
  Qed.
  Lemma fair_solid m : fair_map m -> solid m.
  Proof. intros H k v E. apply (H k v E). Qed.
  Lemma rep_sane t m : fair_map m -> rep t m -> sane t.
  Proof.
    intros Hf (Hw & Hl & Hk). apply (sane_look digest); [exact Hw|]. intros p v Hp E. destruct (Hk p v Hp E) as (k & ->). rewrite Hl in E.
    destruct (Hf k v E) as (H1 & _ & H2). split; [|exact H2]. unfold shortN. rewrite key_len. lia.
  Qed.
  Lemma fair_tree m : fair_map m -> wf (tree_of m) /\ sane (tree_of m) /\ rep (tree_of m) m.
  Proof.
    intros H. pose proof (tree_rep m (fair_solid m H)) as Hr. split; [apply Hr|]. split; [eapply rep_sane; eassumption|exact Hr].
  Qed.

  (** ** Stored maps *)
  Definition whole db m : Prop := forall d, d ∈ parts m -> held db d.
  Lemma whole_shape db m : fair_map m -> whole db m -> shape db (tree_of m) (shallow digest (tree_of m)).
  Proof.
    intros Hf Hw. destruct (fair_tree m Hf) as (H1 & H2 & _). apply stored_shape; [exact H1|exact H2|]. intros d Hd. apply Hw. apply elem_of_list_further, Hd.
  Qed.
  Lemma whole_from db m : fair_map m -> whole db m -> tr_from (mpt_root digest m) db = Some (shallow digest (tree_of m)).
  Proof.
    intros Hf Hw. unfold tr_from, mpt_root. rewrite (Hw (enc (tree_of m))) by apply elem_of_list_here.
    destruct (fair_tree m Hf) as (H1 & H2 & _). apply decode_enc; assumption.
  Qed.
  Lemma whole_mono db db' m : db ⊆ db' -> whole db m -> whole db' m.
  Proof. intros H Hw d Hd. eapply lookup_weaken; [exact (Hw d Hd)|exact H]. Qed.

  Lemma shape_mono db db' t n : db ⊆ db' -> shape db t n -> shape db' t n.
  Proof.
    intros H Hs. apply den_shape_here; [|eapply shape_not_hash, Hs]. eapply den_mono; [exact H|]. apply den_self, Hs.
  Qed.
  (** Committing. *)
  Lemma commit_rep db n t m : shape db t n -> rep t m -> fair_map m -> addressed digest db ->
    no_collision digest (parts m ++ values db) ->
    exists db', tr_commit digest db n = (mpt_root digest m, db', Some (shallow digest (tree_of m))) /\
      db ⊆ db' /\ addressed digest db' /\ whole db' m /\ (forall d, d ∈ values db' -> d ∈ parts m \/ d ∈ values db).
  Proof.
    intros Hs Hr Hf Ha Hc. destruct (fair_tree m Hf) as (Hw & Hsn & Hr'). assert (t = tree_of m) as -> by exact (rep_unique _ _ _ Hr Hr').
    pose proof (shape_enc digest db _ n Hw Hs) as Ee. unfold tr_commit. rewrite Ee. set (l := enc (tree_of m) :: writes n).
    assert (forall d, d ∈ l -> d ∈ parts m) as Hl.
    { intros d Hd. apply elem_of_cons in Hd as [->|Hd]; [apply elem_of_list_here|]. apply elem_of_list_further.
      eapply shape_writes_sub; [exact Hw|exact Hs|exact Hd]. }
    assert (no_collision digest (l ++ values db)) as Hc'.
    { intros a b Ha' Hb. apply Hc; (rewrite elem_of_app in *; destruct Ha', Hb; auto). }
    destruct (put_all_held digest l db Ha Hc') as (H1 & H2 & H3).
    assert (whole (put_all digest l db) m) as Hwh.
    { intros d Hd. apply elem_of_cons in Hd as [->|Hd]; [apply H3, elem_of_list_here|].
      destruct (shape_below digest db (tree_of m) n Hw Hsn Hs d Hd) as [H|H]; [apply H3, elem_of_list_further, H|].
      eapply lookup_weaken; [exact H|exact H2]. }
    exists (put_all digest l db). split; [|split; [exact H2|split; [exact H1|split; [exact Hwh|]]]].
    - pose proof (whole_from _ m Hf Hwh) as E. unfold mpt_root in *. rewrite E. reflexivity.
    - intros d Hd. unfold values in Hd. apply elem_of_list_fmap in Hd as ([h d'] & -> & Hd). apply elem_of_map_to_list in Hd. cbn [snd].
      apply put_all_old in Hd as [[Hd _]|Hd]; [left; apply Hl, Hd|right; eapply values_in, Hd].
  Qed.

  (** ** Roots *)
  Theorem root_inj m1 m2 : fair_map m1 -> fair_map m2 -> no_collision digest (parts m1 ++ parts m2) ->
    mpt_root digest m1 = mpt_root digest m2 -> m1 = m2.
  Proof.
    intros F1 F2 Hc E. set (l := parts m1 ++ parts m2). set (db := put_all digest l ∅).
    destruct (put_all_held digest l ∅) as (_ & _ & Hh).
    { intros h d H. rewrite lookup_empty in H. discriminate. }
    { unfold values. rewrite map_to_list_empty. cbn. rewrite app_nil_r. exact Hc. }
    assert (whole db m1) as W1 by (intros d Hd; apply Hh, elem_of_app; left; exact Hd).
    assert (whole db m2) as W2 by (intros d Hd; apply Hh, elem_of_app; right; exact Hd).
    pose proof (whole_from db m1 F1 W1) as E1. pose proof (whole_from db m2 F2 W2) as E2. rewrite E, E2 in E1. injection E1 as E1.
    pose proof (whole_shape db m1 F1 W1) as S1. pose proof (whole_shape db m2 F2 W2) as S2. rewrite E1 in S2.
    destruct (fair_tree m1 F1) as (_ & _ & R1). destruct (fair_tree m2 F2) as (_ & _ & R2).
    apply map_eq. intros k. pose proof (get_rep db _ _ m1 k S1 R1) as G1. rewrite (get_rep db _ _ m2 k S2 R2) in G1. congruence.
  Qed.
End Facts.
