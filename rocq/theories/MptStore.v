(** * Committed tries: what is stored, and that it is read back. *)
From Verif Require Import Base BaseFacts Types Rlp RlpFacts Mpt MptFacts MptDen MptCodec StorageSpec.
Local Open Scope nat_scope.

Section Store.
  Context (digest : bytes -> hash).
  Notation enc := (enc digest).
  Notation link := (link digest).
  Notation child := (child digest).
  Notation writes := (writes digest).
  Notation below := (below digest).
  Notation den := (den digest).
  Notation shape := (shape digest).
  Notation shallow := (shallow digest).
  Notation sref := (sref digest).
  Notation put_all := (put_all digest).
  Implicit Types (db : gmap hash bytes).

  Definition held db (d : bytes) : Prop := db !! digest d = Some d.

  Lemma writes_branch cs v : writes (Branch cs v) = concat (map below cs).
  Proof. reflexivity. Qed.
  Lemma writes_ext k c : writes (Ext k c) = below c.
  Proof. reflexivity. Qed.
  Lemma below_eq c : (forall h, c <> HashN h) -> below c = (if length (enc c) <? 32 then [] else [enc c]) ++ writes c.
  Proof. intros H. destruct c; try reflexivity. destruct (H h eq_refl). Qed.
  Lemma wf_not_hash c : wf c -> forall h, c <> HashN h.
  Proof. intros H h ->. destruct H. Qed.
  Lemma in_below cs c d : c ∈ cs -> d ∈ below c -> d ∈ concat (map below cs).
  Proof.
    intros Hc Hd. apply elem_of_list_In. apply in_concat. exists (below c). split; [apply in_map|]; apply elem_of_list_In; assumption.
  Qed.

  (** A stored tree, one node loaded. *)
  Lemma stored_shape db t : wf t -> sane t -> (forall d, d ∈ writes t -> held db d) -> shape db t (shallow t).
  Proof.
    assert (forall c, wf c -> sane c -> (wf c -> sane c -> (forall d, d ∈ writes c -> held db d) -> shape db c (shallow c)) ->
      (forall d, d ∈ below c -> held db d) -> den db c (sref c)) as Hc.
    { intros c Hw Hs IH Hst. assert (shape db c (shallow c)) as Hsh.
      { apply IH; [exact Hw|exact Hs|]. intros d Hd. apply Hst. rewrite below_eq by (apply wf_not_hash, Hw). apply elem_of_app. right. exact Hd. }
      unfold MptCodec.sref. destruct (Nat.ltb_spec (length (enc c)) 32) as [Hl|Hl]; [apply den_self, Hsh|].
      apply den_shape. exists (shallow c). split; [|exact Hsh]. right. exists (enc c).
      split; [reflexivity|]. split; [|split; [reflexivity|split; [exact Hl|apply decode_enc; assumption]]].
      apply (Hst (enc c)). rewrite below_eq by (apply wf_not_hash, Hw). apply elem_of_app. left.
      rewrite (proj2 (Nat.ltb_ge _ _) Hl). apply elem_of_list_here. }
    induction t as [|k v|k c IH|cs v IH|h] using node_ind'; intros Hw Hs Hst; [exact I|split; reflexivity| | |destruct Hw].
    - split; [reflexivity|]. apply Hc; [apply Hw|apply Hs|exact IH|]. exact Hst.
    - rewrite shallow_branch. split; [reflexivity|]. apply wf_branch in Hw as (_ & _ & _ & Hw). destruct Hs as [_ Hs]. apply sane_children in Hs.
      rewrite writes_branch in Hst. apply Forall2_fmap_r. apply Forall_Forall2_diag. apply Forall_forall. intros c Hin. unfold compose.
      eapply Forall_forall in Hw; [|exact Hin]. eapply Forall_forall in Hs; [|exact Hin]. eapply Forall_forall in IH; [|exact Hin].
      apply Hc; [exact Hw|exact Hs|exact IH|]. intros d Hd. apply Hst. eapply in_below; eassumption.
  Qed.

  (** A node in memory is encoded like the tree it stands for. *)
  Lemma den_child db t : forall n, wf t -> den db t n -> child n = link (enc t) /\ (shape db t n -> enc n = enc t).
  Proof.
    assert (forall t n, (shape db t n -> enc n = enc t) -> den db t n -> child n = link (enc t)) as Hstep.
    { intros t0 n Hs Hd. apply den_shape in Hd as (n0 & [->|(d & -> & _ & -> & Hl & _)] & Hsh).
      - rewrite <- (Hs Hsh). destruct n; try reflexivity. destruct t0; destruct Hsh.
      - cbn [Mpt.child]. unfold Mpt.link. rewrite (proj2 (Nat.ltb_ge _ _) Hl). reflexivity. }
    induction t as [|k v|k c IH|ts v IH|h] using node_ind'; intros n Hw Hd; [| | | |destruct Hw].
    - assert (shape db Empty n -> enc n = enc Empty) as E by (intros H; destruct n; try (destruct H; fail); reflexivity).
      split; [apply (Hstep _ _ E Hd)|exact E].
    - assert (shape db (Leaf k v) n -> enc n = enc (Leaf k v)) as E.
      { intros H; destruct n; try (destruct H; fail). destruct H as [-> ->]. reflexivity. }
      split; [apply (Hstep _ _ E Hd)|exact E].
    - assert (shape db (Ext k c) n -> enc n = enc (Ext k c)) as E.
      { intros H; destruct n as [| |k' c'| |]; try (destruct H; fail). destruct H as [-> Hc]. rewrite !enc_ext.
        destruct Hw as (_ & _ & _ & Hw). rewrite (proj1 (IH c' Hw Hc)), child_wf by exact Hw. reflexivity. }
      split; [apply (Hstep _ _ E Hd)|exact E].
    - assert (shape db (Branch ts v) n -> enc n = enc (Branch ts v)) as E.
      { intros H; destruct n as [| | |cs v'|]; try (destruct H; fail). destruct H as [-> Hc]. rewrite !enc_branch.
        apply wf_branch in Hw as (_ & _ & _ & Hw). f_equal. f_equal. clear Hd Hstep.
        induction Hc as [|u c ts cs Hu Hc IHc]; [reflexivity|]. cbn [map].
        rewrite (proj1 (Forall_inv IH c (Forall_inv Hw) Hu)), child_wf by exact (Forall_inv Hw).
        f_equal. apply IHc; [exact (Forall_inv_tail IH)|exact (Forall_inv_tail Hw)]. }
      split; [apply (Hstep _ _ E Hd)|exact E].
  Qed.
  Lemma shape_enc db t n : wf t -> shape db t n -> enc n = enc t.
  Proof. intros Hw Hs. exact (proj2 (den_child db t n Hw (den_self _ _ _ _ Hs)) Hs). Qed.
  Lemma shape_not_hash db t n : shape db t n -> forall h, n <> HashN h.
  Proof. intros H h ->. destruct t; destruct H. Qed.

  Lemma sref_hash_or c : (sref c = HashN (digest (enc c)) /\ 32 <= length (enc c)) \/ (sref c = shallow c /\ length (enc c) < 32).
  Proof. unfold MptCodec.sref. destruct (Nat.ltb_spec (length (enc c)) 32); auto. Qed.
  Lemma shallow_not_hash c : wf c -> forall h, shallow c <> HashN h.
  Proof. intros H h E. destruct c; try discriminate. destruct H. Qed.
  (** A loaded node has nothing to write below it. *)
  Lemma shallow_enc t : wf t -> enc (shallow t) = enc t.
  Proof.
    assert (forall c, wf c -> (wf c -> enc (shallow c) = enc c) -> child (sref c) = child c) as Hc.
    { intros c Hw IH. rewrite (child_wf _ c) by exact Hw. destruct (sref_hash_or c) as [[-> Hl]|[-> Hl]].
      - cbn [Mpt.child]. unfold Mpt.link. rewrite (proj2 (Nat.ltb_ge _ _) Hl). reflexivity.
      - specialize (IH Hw). pose proof (shallow_not_hash c Hw) as Hn. rewrite <- IH. destruct (shallow c); try reflexivity. destruct (Hn h eq_refl). }
    induction t as [|k v|k c IH|cs v IH|h] using node_ind'; intros Hw; [reflexivity|reflexivity| | |destruct Hw].
    - change (shallow (Ext k c)) with (Ext k (sref c)). rewrite !enc_ext, Hc; [reflexivity|apply Hw|exact IH].
    - rewrite shallow_branch, !enc_branch. apply wf_branch in Hw as (_ & _ & _ & Hw). f_equal. f_equal. rewrite map_map. apply map_ext_in.
      intros c Hin. apply elem_of_list_In in Hin. eapply Forall_forall in Hw; [|exact Hin]. eapply Forall_forall in IH; [|exact Hin]. apply Hc; assumption.
  Qed.
  Lemma shallow_writes t : wf t -> writes (shallow t) = [].
  Proof.
    assert (forall c, wf c -> (wf c -> writes (shallow c) = []) -> below (sref c) = []) as Hc.
    { intros c Hw IH. destruct (sref_hash_or c) as [[-> Hl]|[-> Hl]]; [reflexivity|].
      rewrite below_eq by (apply shallow_not_hash, Hw). rewrite shallow_enc, IH by exact Hw. rewrite (proj2 (Nat.ltb_lt _ _) Hl). reflexivity. }
    induction t as [|k v|k c IH|cs v IH|h] using node_ind'; intros Hw; [reflexivity|reflexivity| | |destruct Hw].
    - change (shallow (Ext k c)) with (Ext k (sref c)). rewrite writes_ext. apply Hc; [apply Hw|exact IH].
    - rewrite shallow_branch, writes_branch. apply wf_branch in Hw as (_ & _ & _ & Hw). rewrite map_map.
      assert (forall l, Forall (fun c => below (sref c) = []) l -> concat (map (fun c => below (sref c)) l) = []) as Hnil.
      { intros l H. induction H as [|c l E _ IHl]; [reflexivity|]. cbn [map concat]. rewrite E. exact IHl. }
      apply Hnil. apply Forall_forall. intros c Hin. eapply Forall_forall in Hw; [|exact Hin]. eapply Forall_forall in IH; [|exact Hin]. apply Hc; assumption.
  Qed.

  Lemma forall2_in {A B} (R : A -> B -> Prop) l k x : Forall2 R l k -> x ∈ l -> exists y, y ∈ k /\ R x y.
  Proof.
    intros H Hx. apply elem_of_list_lookup in Hx as (i & Hi). destruct (Forall2_lookup_l _ _ _ _ _ H Hi) as (y & Hy & Hr).
    exists y. split; [eapply elem_of_list_lookup_2, Hy|exact Hr].
  Qed.
  Lemma forall2_in_r {A B} (R : A -> B -> Prop) l k y : Forall2 R l k -> y ∈ k -> exists x, x ∈ l /\ R x y.
  Proof.
    intros H Hx. apply elem_of_list_lookup in Hx as (i & Hi). destruct (Forall2_lookup_r _ _ _ _ _ H Hi) as (x & Hy & Hr).
    exists x. split; [eapply elem_of_list_lookup_2, Hy|exact Hr].
  Qed.

  (** What the tree needs is in the database, or is written with the node. *)
  Lemma den_below db t : forall n d, wf t -> sane t -> den db t n -> d ∈ below t -> d ∈ below n \/ held db d.
  Proof.
    assert (forall t, wf t -> sane t -> (forall n0 d, shape db t n0 -> d ∈ writes t -> d ∈ writes n0 \/ held db d) ->
      forall n d, den db t n -> d ∈ below t -> d ∈ below n \/ held db d) as Hstep.
    { intros t0 Hw Hs IH n d Hd Hin. rewrite below_eq in Hin by (apply wf_not_hash, Hw).
      apply den_shape in Hd as (n0 & [->|(d0 & -> & Hdb & E0 & Hl & Hdec)] & Hsh).
      - rewrite (below_eq n) by (eapply shape_not_hash, Hsh). rewrite (shape_enc db t0 n Hw Hsh). apply elem_of_app in Hin as [Hin|Hin].
        + left. apply elem_of_app. left. exact Hin.
        + destruct (IH n d Hsh Hin) as [H|H]; [left; apply elem_of_app; right; exact H|right; exact H].
      - right. rewrite E0 in Hdb, Hdec. apply elem_of_app in Hin as [Hin|Hin].
        + destruct (length (enc t0) <? 32); [apply elem_of_nil in Hin as []|]. apply elem_of_list_singleton in Hin as ->. exact Hdb.
        + rewrite decode_enc in Hdec by assumption. injection Hdec as <-. destruct (IH _ d Hsh Hin) as [H|H]; [|exact H].
          rewrite shallow_writes in H by exact Hw. apply elem_of_nil in H as []. }
    assert (forall t, wf t -> sane t -> forall n0 d, shape db t n0 -> d ∈ writes t -> d ∈ writes n0 \/ held db d) as Hmain.
    { intros t1; induction t1 as [|k v|k c IH|ts v IH|h] using node_ind'; intros Hw Hs n0 d Hsh Hin; [apply elem_of_nil in Hin; destruct Hin|apply elem_of_nil in Hin; destruct Hin| | |apply elem_of_nil in Hin; destruct Hin].
      - destruct n0 as [| |k' c'| |]; try (destruct Hsh; fail). destruct Hsh as [-> Hc]. rewrite writes_ext in *.
        destruct Hw as (_ & _ & _ & Hw), Hs as [_ Hs]. apply (Hstep c Hw Hs (IH Hw Hs) c' d Hc Hin).
      - destruct n0 as [| | |cs v'|]; try (destruct Hsh; fail). destruct Hsh as [-> Hc]. rewrite writes_branch in *.
        apply wf_branch in Hw as (_ & _ & _ & Hw). destruct Hs as [_ Hs]. apply sane_children in Hs.
        apply elem_of_list_In, in_concat in Hin as (l & Hl & Hd). apply in_map_iff in Hl as (c & <- & Hc').
        apply elem_of_list_In in Hc', Hd. destruct (forall2_in _ _ _ _ Hc Hc') as (c' & Hin' & Hcc).
        eapply Forall_forall in Hw; [|exact Hc']. eapply Forall_forall in Hs; [|exact Hc']. eapply Forall_forall in IH; [|exact Hc'].
        destruct (Hstep c Hw Hs (IH Hw Hs) c' d Hcc Hd) as [H|H]; [left; eapply in_below; eassumption|right; exact H]. }
    intros n d Hw Hs. apply (Hstep t Hw Hs (Hmain t Hw Hs)).
  Qed.
  (** Nothing else is written. *)
  Lemma below_sub db t : forall n d, wf t -> den db t n -> d ∈ below n -> d ∈ below t.
  Proof.
    induction t as [|k v|k c IH|ts v IH|h] using node_ind'; intros n d Hw Hd Hin; [| | | |destruct Hw];
      apply den_shape in Hd as (n0 & [->|(d0 & -> & _)] & Hsh); try (apply elem_of_nil in Hin; destruct Hin; fail);
      rewrite below_eq in Hin by (match type of Hw with wf ?t => exact (shape_not_hash db t n Hsh) end); rewrite (shape_enc db _ _ Hw Hsh) in Hin;
      rewrite below_eq by (apply wf_not_hash, Hw); apply elem_of_app; apply elem_of_app in Hin as [Hin|Hin]; try (left; exact Hin); right;
      destruct n as [|k' v'|k' c'|cs v'|]; try (destruct Hsh; fail); try (apply elem_of_nil in Hin; destruct Hin; fail).
    - destruct Hsh as [-> Hc]. rewrite writes_ext in *. eapply IH; [apply Hw|exact Hc|exact Hin].
    - destruct Hsh as [-> Hc]. rewrite writes_branch in *. apply wf_branch in Hw as (_ & _ & _ & Hw).
      apply elem_of_list_In, in_concat in Hin as (l & Hl & Hd). apply in_map_iff in Hl as (c & <- & Hc').
      apply elem_of_list_In in Hc', Hd. destruct (forall2_in_r _ _ _ _ Hc Hc') as (u & Hu & Huc).
      eapply Forall_forall in Hw; [|exact Hu]. eapply Forall_forall in IH; [|exact Hu].
      eapply in_below; [exact Hu|]. eapply IH; eassumption.
  Qed.
  Lemma shape_below db t n : wf t -> sane t -> shape db t n -> forall d, d ∈ writes t -> d ∈ writes n \/ held db d.
  Proof.
    intros Hw Hs Hsh d Hd. destruct (decide (length (enc t) < 32)) as [Hl|Hl].
    - destruct (den_below db t n d Hw Hs (den_self _ _ _ _ Hsh)) as [H|H]; [|left|right; exact H].
      + rewrite below_eq by (apply wf_not_hash, Hw). apply elem_of_app. right. exact Hd.
      + rewrite below_eq in H by (eapply shape_not_hash, Hsh). rewrite (shape_enc _ _ _ Hw Hsh) in H.
        rewrite (proj2 (Nat.ltb_lt _ _) Hl) in H. exact H.
    - (* the writes themselves, child by child *)
      destruct t as [|k v|k c|ts v|h], n as [|k' v'|k' c'|cs v'|]; try (destruct Hsh; fail); try (apply elem_of_nil in Hd; destruct Hd; fail).
      + destruct Hsh as [-> Hc]. rewrite writes_ext in *. apply (den_below db c c' d); [apply Hw|apply Hs|exact Hc|exact Hd].
      + destruct Hsh as [-> Hc]. rewrite writes_branch in *. apply wf_branch in Hw as (_ & _ & _ & Hw). destruct Hs as [_ Hs]. apply sane_children in Hs.
        apply elem_of_list_In, in_concat in Hd as (l & Hl' & Hd). apply in_map_iff in Hl' as (c & <- & Hc').
        apply elem_of_list_In in Hc', Hd. destruct (forall2_in _ _ _ _ Hc Hc') as (c' & Hin' & Hcc).
        eapply Forall_forall in Hw; [|exact Hc']. eapply Forall_forall in Hs; [|exact Hc'].
        destruct (den_below db c c' d Hw Hs Hcc Hd) as [H|H]; [left; eapply in_below; eassumption|right; exact H].
  Qed.
  Lemma shape_writes_sub db t n : wf t -> shape db t n -> forall d, d ∈ writes n -> d ∈ writes t.
  Proof.
    intros Hw Hsh d Hd. destruct t as [|k v|k c|ts v|h], n as [|k' v'|k' c'|cs v'|]; try (destruct Hsh; fail); try (apply elem_of_nil in Hd; destruct Hd; fail).
    - destruct Hsh as [-> Hc]. rewrite writes_ext in *. eapply below_sub; [apply Hw|exact Hc|exact Hd].
    - destruct Hsh as [-> Hc]. rewrite writes_branch in *. apply wf_branch in Hw as (_ & _ & _ & Hw).
      apply elem_of_list_In, in_concat in Hd as (l & Hl & Hd). apply in_map_iff in Hl as (c & <- & Hc').
      apply elem_of_list_In in Hc', Hd. destruct (forall2_in_r _ _ _ _ Hc Hc') as (u & Hu & Huc).
      eapply Forall_forall in Hw; [|exact Hu]. eapply in_below; [exact Hu|]. eapply below_sub; eassumption.
  Qed.

  (** *** The batch *)
  Definition addressed db : Prop := forall h d, db !! h = Some d -> h = digest d.
  Lemma put_all_old l db h d : put_all l db !! h = Some d -> (d ∈ l /\ h = digest d) \/ db !! h = Some d.
  Proof.
    induction l as [|x l IH]; cbn [Mpt.put_all fold_right]; [auto|]. intros H. destruct (decide (digest x = h)) as [<-|Hne].
    - rewrite lookup_insert in H. injection H as <-. left. split; [apply elem_of_list_here|reflexivity].
    - rewrite lookup_insert_ne in H by exact Hne. destruct (IH H) as [[H1 H2]|H1]; [left; split; [apply elem_of_list_further, H1|exact H2]|right; exact H1].
  Qed.
  Lemma put_all_some l db h : (exists d, d ∈ l /\ h = digest d) \/ is_Some (db !! h) -> is_Some (put_all l db !! h).
  Proof.
    induction l as [|x l IH]; cbn [Mpt.put_all fold_right].
    - intros [(d & H & _)|H]; [apply elem_of_nil in H as []|exact H].
    - intros H. destruct (decide (digest x = h)) as [<-|Hne]; [rewrite lookup_insert; eauto|]. rewrite lookup_insert_ne by exact Hne. apply IH.
      destruct H as [(d & H & ->)|H]; [|right; exact H]. apply elem_of_cons in H as [->|H]; [congruence|]. left. eauto.
  Qed.
  Definition values db : list bytes := (map_to_list db).*2.
  Lemma values_in db h d : db !! h = Some d -> d ∈ values db.
  Proof. intros H. unfold values. apply elem_of_list_fmap. exists (h, d). split; [reflexivity|]. apply elem_of_map_to_list, H. Qed.
  Lemma put_all_held l db : addressed db -> no_collision digest (l ++ values db) ->
    addressed (put_all l db) /\ db ⊆ put_all l db /\ (forall d, d ∈ l -> held (put_all l db) d).
  Proof.
    intros Ha Hc. split; [|split].
    - intros h d H. apply put_all_old in H as [[_ H]|H]; [exact H|apply Ha, H].
    - apply map_subseteq_spec. intros h d H. destruct (put_all_some l db h) as [d' H']; [right; eauto|]. rewrite H'. f_equal.
      apply put_all_old in H' as [[H1 H2]|H1]; [|congruence]. apply Hc.
      + apply elem_of_app. left. exact H1.
      + apply elem_of_app. right. eapply values_in, H.
      + rewrite <- H2. apply Ha, H.
    - intros d Hd. unfold held. destruct (put_all_some l db (digest d)) as [d' H']; [left; eauto|]. rewrite H'. f_equal.
      apply put_all_old in H' as [[H1 H2]|H1]; apply Hc.
      + apply elem_of_app. left. exact H1.
      + apply elem_of_app. left. exact Hd.
      + symmetry. exact H2.
      + apply elem_of_app. right. eapply values_in, H1.
      + apply elem_of_app. left. exact Hd.
      + symmetry. apply Ha, H1.
  Qed.

  (** *** Bounds *)
  Lemma sane_look t : wf t -> (forall p v, kp p -> look t p = Some v -> shortN (length p) /\ shortN (length v)) -> sane t.
  Proof.
    induction t as [|k v|k c IH|cs v IH|h] using node_ind'; intros Hw H; [exact I| | | |exact I].
    - destruct Hw as [Hk _]. apply (H k v Hk). cbn [look]. rewrite decide_True by reflexivity. reflexivity.
    - destruct Hw as (_ & Hl & Hb & Hw). split.
      + destruct (wf_some c Hw) as (p & w & Hp & Hlk); [intros ->; destruct Hb|].
        destruct (H (k ++ p) w) as [H1 _]; [apply kp_app; assumption|rewrite look_ext; exact Hlk|].
        unfold shortN in *. rewrite app_length in H1. lia.
      + apply IH; [exact Hw|]. intros p w Hp Hlk. destruct (H (k ++ p) w) as [H1 H2]; [apply kp_app; assumption|rewrite look_ext; exact Hlk|].
        split; [|exact H2]. unfold shortN in *. rewrite app_length in H1. lia.
    - pose proof Hw as Hw'. apply wf_branch in Hw as (Hlen & _ & _ & Hw). split.
      + intros w ->. apply (H [TERM] w kp_term). rewrite look_branch. reflexivity.
      + apply sane_children. apply Forall_lookup_2. intros i c Hc. pose proof (lookup_lt_Some _ _ _ Hc) as Hi. rewrite Hlen in Hi.
        rewrite Forall_lookup in IH. rewrite Forall_lookup in Hw. apply (IH i c Hc (Hw i c Hc)). intros p w Hp Hlk.
        destruct (H (i :: p) w) as [H1 H2]; [apply kp_cons; right; split; assumption| |split; [|exact H2]].
        * rewrite look_branch. destruct (Nat.eqb_spec i TERM); [lia|]. rewrite nth_lookup, Hc. exact Hlk.
        * unfold shortN in *. cbn [length] in H1. lia.
  Qed.
End Store.
