(** * The pool refines the list specification. *)
From Verif Require Import Base BaseFacts Hex Types Rlp FixedCodec Mempool MempoolSpec.
Local Open Scope N_scope.

Definition live (c : tx_cache) : list wrapper := filter (fun w => w_id w ∉ tc_removed c) (tc_incumbent c).

Record inv (c : tx_cache) : Prop := {
  inv_cand : tc_candidate c = [];
  inv_ids : NoDup (map w_id (tc_incumbent c));
  inv_next : forall w, w ∈ tc_incumbent c -> (w_id w < tc_next c)%nat;
  inv_rem : forall i, i ∈ tc_removed c -> (i < tc_next c)%nat;
  inv_cap : (length (tc_incumbent c) <= tc_cap c)%nat;
  inv_map : forall h w, tc_map c !! h = Some w <-> w ∈ live c /\ w_hash w = h }.

Lemma NoDup_map_inj {A B} (f : A -> B) (l : list A) :
  NoDup l -> (forall x y, x ∈ l -> y ∈ l -> f x = f y -> x = y) -> NoDup (map f l).
Proof.
  induction 1 as [|x l Hx Hl IH]; cbn; intros Hf; constructor.
  - intros Hin. apply elem_of_list_fmap in Hin as (y & E & Hy). apply Hx.
    rewrite (Hf x y); [exact Hy|left|right; exact Hy|exact E].
  - apply IH. intros a b Ha Hb. apply Hf; right; assumption.
Qed.

Lemma NoDup_map_of {A B} (f : A -> B) (l : list A) : NoDup (map f l) -> NoDup l.
Proof. apply NoDup_fmap_1. Qed.

Section C.
  Context (c : tx_cache) (Hi : inv c).

  Lemma live_nodup : NoDup (live c).
  Proof. apply NoDup_filter. eapply NoDup_map_of, inv_ids, Hi. Qed.

  Lemma live_hashes : NoDup (map w_hash (live c)).
  Proof.
    apply NoDup_map_inj; [exact live_nodup|]. intros x y Hx Hy E.
    assert (H1 : tc_map c !! w_hash x = Some x) by (apply (inv_map c Hi); auto).
    assert (H2 : tc_map c !! w_hash x = Some y) by (apply (inv_map c Hi); auto). congruence.
  Qed.

  Lemma map_as_list : tc_map c = list_to_map (map (fun w => (w_hash w, w)) (live c)).
  Proof.
    assert (Hn : NoDup (map fst (map (fun w => (w_hash w, w)) (live c)))).
    { rewrite map_map. cbn. exact live_hashes. }
    apply map_eq. intros h. destruct (tc_map c !! h) as [w|] eqn:E.
    - symmetry. apply elem_of_list_to_map; [exact Hn|]. apply (inv_map c Hi) in E as [H1 H2].
      apply elem_of_list_fmap. exists w. rewrite H2. auto.
    - symmetry. apply not_elem_of_list_to_map. intros Hin. apply elem_of_list_fmap in Hin as ([h' w] & -> & Hin).
      apply elem_of_list_fmap in Hin as (w' & [= -> ->] & Hw).
      assert (X : tc_map c !! w_hash w' = Some w') by (apply (inv_map c Hi); auto). cbn in E. congruence.
  Qed.

  Lemma len_live : tc_len c = length (live c).
  Proof.
    unfold tc_len. rewrite map_as_list.
    assert (Hn : NoDup (map fst (map (fun w => (w_hash w, w)) (live c)))).
    { rewrite map_map. cbn. exact live_hashes. }
    pose proof (map_to_list_to_map (M := gmap hash) _ Hn) as P. unfold size, map_size. rewrite P, map_length. reflexivity.
  Qed.

  Lemma map_none h : tc_map c !! h = None <-> h ∉ map w_hash (live c).
  Proof.
    split.
    - intros E Hin. apply elem_of_list_fmap in Hin as (w & -> & Hw).
      assert (X : tc_map c !! w_hash w = Some w) by (apply (inv_map c Hi); auto). congruence.
    - intros Hn. destruct (tc_map c !! h) as [w|] eqn:E; [|reflexivity]. exfalso. apply Hn.
      apply (inv_map c Hi) in E as [H1 <-]. apply elem_of_list_fmap. eauto.
  Qed.
End C.

(** ** insert *)
Lemma set_queues_inc c a b : tc_incumbent (tc_set_queues c a b) = a.
Proof. unfold tc_incumbent, tc_set_queues. destruct (tc_zero c); reflexivity. Qed.
Lemma set_queues_cand c a b : tc_candidate (tc_set_queues c a b) = b.
Proof. unfold tc_candidate, tc_set_queues. destruct (tc_zero c); reflexivity. Qed.
Lemma set_queues_rest c a b :
  tc_cap (tc_set_queues c a b) = tc_cap c /\ tc_map (tc_set_queues c a b) = tc_map c /\
  tc_removed (tc_set_queues c a b) = tc_removed c /\ tc_next (tc_set_queues c a b) = tc_next c.
Proof. unfold tc_set_queues. destruct (tc_zero c); auto. Qed.

Lemma insert_spec c t b r c' : inv c -> tc_insert c t b = (r, c') ->
  inv c' /\ tc_cap c' = tc_cap c /\
  match r with
  | Ok _ => st_tx_hash t ∉ map w_hash (live c) /\ (length (tc_incumbent c) < tc_cap c)%nat /\
            (exists i, live c' = live c ++ [MkW i t b]) /\ length (tc_incumbent c') = S (length (tc_incumbent c))
  | Err e => live c' = live c /\ tc_incumbent c' = tc_incumbent c /\ tc_map c' = tc_map c /\
             ((e = MDup (st_tx_hash t) /\ st_tx_hash t ∈ map w_hash (live c)) \/
              (e = MInsert (st_tx_hash t) /\ st_tx_hash t ∉ map w_hash (live c) /\
               length (tc_incumbent c) = tc_cap c))
  | Panic => False
  end.
Proof.
  intros Hi. unfold tc_insert. cbn zeta.
  destruct (tc_map c !! st_tx_hash t) as [w0|] eqn:E.
  { intros [= <- <-]. split; [exact Hi|]. split; [reflexivity|]. split; [reflexivity|]. split; [reflexivity|].
    split; [reflexivity|]. left. split; [reflexivity|]. apply (inv_map c Hi) in E as [H1 H2].
    rewrite <- H2. apply elem_of_list_fmap. eauto. }
  apply (map_none c Hi) in E as En.
  destruct (tc_cap c <=? length (tc_incumbent c))%nat eqn:El.
  - apply Nat.leb_le in El. pose proof (inv_cap c Hi) as Hc. intros [= <- <-].
    unfold tc_set_map. cbn. rewrite delete_insert by exact E.
    split.
    { destruct Hi as [? ? Hn Hr ? ?]. constructor; try assumption; cbn.
      - intros w Hw. specialize (Hn w Hw). lia.
      - intros i Hr'. specialize (Hr i Hr'). lia. }
    split; [reflexivity|]. split; [reflexivity|]. split; [reflexivity|]. split; [reflexivity|].
    right. split; [reflexivity|]. split; [exact En|]. lia.
  - apply Nat.leb_gt in El. intros [= <- <-].
    set (w := MkW (tc_next c) t b).
    set (c1 := MkTC _ _ _ _ _ _ _).
    pose proof (set_queues_inc c1 (tc_incumbent c1 ++ [w]) (tc_candidate c1)) as Q1.
    pose proof (set_queues_cand c1 (tc_incumbent c1 ++ [w]) (tc_candidate c1)) as Q2.
    pose proof (set_queues_rest c1 (tc_incumbent c1 ++ [w]) (tc_candidate c1)) as (Q3 & Q4 & Q5 & Q6).
    set (c2 := tc_set_queues _ _ _) in *.
    change (tc_incumbent c1) with (tc_incumbent c) in *. change (tc_candidate c1) with (tc_candidate c) in *.
    change (tc_cap c1) with (tc_cap c) in *. change (tc_removed c1) with (tc_removed c) in *.
    change (tc_map c1) with (<[st_tx_hash t := w]> (tc_map c)) in Q4. change (tc_next c1) with (S (tc_next c)) in Q6.
    assert (Hlive : live c2 = live c ++ [w]).
    { unfold live. rewrite Q1, Q5, filter_app. f_equal.
      rewrite filter_cons_True; [reflexivity|]. intros X. apply (inv_rem c Hi) in X. cbn in X. lia. }
    split.
    { constructor.
      - rewrite Q2. apply Hi.
      - rewrite Q1, map_app. apply NoDup_app. split; [apply Hi|]. split; [|apply NoDup_singleton].
        intros i Hin Hin'. apply elem_of_list_singleton in Hin'. apply elem_of_list_fmap in Hin as (v & Ev & Hv).
        pose proof (inv_next c Hi v Hv). cbn in Hin'. lia.
      - rewrite Q1, Q6. intros v Hv. apply elem_of_app in Hv as [Hv|Hv].
        + pose proof (inv_next c Hi v Hv). lia.
        + apply elem_of_list_singleton in Hv as ->. cbn. lia.
      - rewrite Q5, Q6. intros i Hr. pose proof (inv_rem c Hi i Hr). lia.
      - rewrite Q1, Q3, app_length. cbn. lia.
      - intros h v. rewrite Q4, Hlive, elem_of_app, elem_of_list_singleton.
        destruct (decide (st_tx_hash t = h)) as [<-|ne].
        + rewrite lookup_insert. split.
          * intros [= <-]. split; [right; reflexivity|reflexivity].
          * intros [[Hv| ->] Hh]; [|reflexivity]. exfalso. apply En. rewrite <- Hh. apply elem_of_list_fmap. eauto.
        + rewrite lookup_insert_ne by exact ne. rewrite (inv_map c Hi h v). split; [tauto|].
          intros [[Hv| ->] Hh]; [auto|]. exfalso. apply ne. exact Hh. }
    split; [exact Q3|]. split; [exact En|]. split; [lia|]. split; [exists (tc_next c); exact Hlive|].
    rewrite Q1, app_length. cbn. lia.
Qed.

(** ** flush *)
Lemma map_deletes_lookup {V} (m : gmap hash V) hs h :
  map_deletes m hs !! h = if decide (h ∈ hs) then None else m !! h.
Proof.
  unfold map_deletes. revert m. induction hs as [|k hs IH]; intros m; cbn.
  - rewrite decide_False by (intros X; inversion X). reflexivity.
  - rewrite IH. destruct (decide (h ∈ hs)) as [Hin|Hin].
    + rewrite decide_True by (right; exact Hin). reflexivity.
    + destruct (decide (h = k)) as [->|ne].
      * rewrite decide_True by left. apply lookup_delete.
      * rewrite decide_False by (intros X; apply elem_of_cons in X as [?|?]; contradiction).
        apply lookup_delete_ne. congruence.
Qed.

Lemma flush_removed (m : gmap hash wrapper) (hs : list hash) (r : gset nat) (i : nat) :
  i ∈ fold_left (fun r h => match m !! h with Some w => {[ w_id w ]} ∪ r | None => r end) hs r <->
  i ∈ r \/ exists h w, h ∈ hs /\ m !! h = Some w /\ w_id w = i.
Proof.
  revert r. induction hs as [|k hs IH]; intros r; cbn.
  - split; [auto|]. intros [?|(h & w & X & _)]; [assumption|inversion X].
  - rewrite IH. destruct (m !! k) as [w|] eqn:E.
    + rewrite elem_of_union, elem_of_singleton. split.
      * intros [[-> |?]|(h & w' & ? & ? & ?)]; [right; exists k, w; split; [left|auto]|auto|].
        right. exists h, w'. split; [right; assumption|auto].
      * intros [?|(h & w' & Hh & Hw & Hi)]; [auto|]. apply elem_of_cons in Hh as [->|Hh].
        -- left. left. congruence.
        -- right. exists h, w'. auto.
    + split.
      * intros [?|(h & w' & ? & ? & ?)]; [auto|]. right. exists h, w'. split; [right; assumption|auto].
      * intros [?|(h & w' & Hh & Hw & Hi)]; [auto|]. apply elem_of_cons in Hh as [->|Hh]; [congruence|].
        right. exists h, w'. auto.
Qed.

Lemma filter_ext_in {A} (P Q : A -> Prop) `{!forall x, Decision (P x), !forall x, Decision (Q x)} (l : list A) :
  (forall x, x ∈ l -> P x <-> Q x) -> filter P l = filter Q l.
Proof.
  induction l as [|x l IH]; intros HH; [reflexivity|]. rewrite !filter_cons.
  rewrite IH by (intros y Hy; apply HH; right; exact Hy).
  destruct (decide (P x)), (decide (Q x)); try reflexivity; exfalso; assert (X   := HH x ltac:(left)); tauto.
Qed.
Lemma filter_filter_in {A} (P Q R : A -> Prop)
  `{!forall x, Decision (P x), !forall x, Decision (Q x), !forall x, Decision (R x)} (l : list A) :
  (forall x, x ∈ l -> R x <-> P x /\ Q x) -> filter P (filter Q l) = filter R l.
Proof.
  intros HH. induction l as [|x l IH]; [reflexivity|]. rewrite (filter_cons Q), (filter_cons R).
  assert (X   := HH x ltac:(left)). specialize (IH ltac:(intros y Hy; apply HH; right; exact Hy)).
  destruct (decide (Q x)).
  - rewrite filter_cons, IH. destruct (decide (P x)), (decide (R x)); try reflexivity; exfalso; tauto.
  - rewrite IH. destruct (decide (R x)); [exfalso; tauto|reflexivity].
Qed.

Lemma flush_spec c hs : inv c ->
  inv (tc_flush c hs) /\ tc_cap (tc_flush c hs) = tc_cap c /\
  tc_incumbent (tc_flush c hs) = tc_incumbent c /\
  live (tc_flush c hs) = filter (fun w => w_hash w ∉ hs) (live c).
Proof.
  intros Hi. unfold tc_flush. set (rm := fold_left _ _ _). set (c' := MkTC _ _ _ _ _ _ _).
  assert (Hinc : tc_incumbent c' = tc_incumbent c) by reflexivity.
  assert (Hlive : live c' = filter (fun w => w_hash w ∉ hs) (live c)).
  { unfold live. rewrite Hinc. symmetry. change (tc_removed c') with rm. apply filter_filter_in.
    intros w Hw. unfold rm. rewrite flush_removed. split.
    - intros Hn. split; [|tauto]. intros Hh. apply Hn.
      destruct (decide (w_id w ∈ tc_removed c)) as [|Hnr]; [auto|]. right. exists (w_hash w), w.
      split; [exact Hh|]. split; [|reflexivity]. apply (inv_map c Hi). split; [|reflexivity].
      apply elem_of_list_filter. auto.
    - intros [Hh Hn] [?|(h & v & Hhs & Hv & Hid)]; [contradiction|].
      apply (inv_map c Hi) in Hv as [Hv <-]. apply elem_of_list_filter in Hv as [_ Hv].
      assert (v = w) as ->; [|contradiction].
      pose proof (inv_ids c Hi) as Hnd. apply elem_of_list_lookup in Hv as [i Hv'], Hw as [j Hw'].
      assert (i = j); [|congruence]. eapply NoDup_lookup; [exact Hnd| |]; rewrite list_lookup_fmap.
      + rewrite Hv'. reflexivity.
      + rewrite Hw'. cbn. congruence. }
  split; [|split; [reflexivity|split; [reflexivity|exact Hlive]]].
  constructor.
  - exact (inv_cand c Hi).
  - exact (inv_ids c Hi).
  - exact (inv_next c Hi).
  - intros i Hr. change (tc_removed c') with rm in Hr. unfold rm in Hr. apply flush_removed in Hr as [Hr|(h & w & _ & Hw & <-)].
    + exact (inv_rem c Hi i Hr).
    + apply (inv_map c Hi) in Hw as [Hw _]. apply elem_of_list_filter in Hw as [_ Hw]. exact (inv_next c Hi w Hw).
  - exact (inv_cap c Hi).
  - intros h w. change (tc_map c') with (map_deletes (tc_map c) hs). rewrite map_deletes_lookup, Hlive, elem_of_list_filter.
    destruct (decide (h ∈ hs)) as [Hh|Hh].
    + split; [discriminate|]. intros [[Hn _] <-]. contradiction.
    + rewrite (inv_map c Hi h w). split; [intros [? <-]; auto|tauto].
Qed.

(** ** package *)
(** The hashes picked by the loop from the surviving wrappers. *)
Fixpoint pick (limit : u64) (st : stage) (cnt : u64) (l : list wrapper) : list hash * list hash * (u64 * stage) :=
  match l with
  | [] => ([], [], (cnt, st))
  | w :: l' =>
      if match st with Finished => true | ProposeTxs => w_proposed w | OrderTxs => false end
      then pick limit st cnt l'
      else
        let count := wrap64 (cnt + tx_cycle (w_tx w)) in
        if limit <? count then
          match st with
          | OrderTxs => let '(o, p, r) := pick limit ProposeTxs (tx_cycle (w_tx w)) l' in (o, w_hash w :: p, r)
          | _ => pick limit Finished (tx_cycle (w_tx w)) l'
          end
        else
          match st with
          | OrderTxs => let '(o, p, r) := pick limit st count l' in (w_hash w :: o, p, r)
          | _ => let '(o, p, r) := pick limit st count l' in (o, w_hash w :: p, r)
          end
  end.

Section Package.
  Context (cap : nat) (limit cur tmo : u64) (removed : gset nat).
  Notation surviving := (filter (fun w => w_id w ∉ removed)).
  Notation keep := (filter (fun w => is_timeout (w_tx w) cur tmo = false)).
  Notation drop_exp := (filter (fun w => is_timeout (w_tx w) cur tmo = true)).

  Lemma loop_spec q : forall s, (length (pk_cand s) + length q <= cap)%nat ->
    let '(o, p, (cnt, st)) := pick limit (pk_stage s) (pk_cycles s) (keep (surviving q)) in
    pk_loop cap limit cur tmo removed q s
    = (Ok (MkPk (pk_order s ++ o) (pk_propose s ++ p) (pk_timeout s ++ map w_hash (drop_exp (surviving q)))
                cnt st (pk_cand s ++ keep (surviving q))), [], pk_cand s ++ keep (surviving q)).
  Proof.
    induction q as [|w q IH]; intros s Hl.
    - cbn. rewrite !app_nil_r. destruct s; reflexivity.
    - cbn [pk_loop]. unfold pk_visit. rewrite filter_cons. cbn [length] in Hl.
      destruct (decide (w_id w ∈ removed)) as [Hr|Hr].
      { rewrite decide_False by tauto. apply IH. lia. }
      rewrite decide_True by exact Hr. rewrite !filter_cons.
      destruct (is_timeout (w_tx w) cur tmo) eqn:Et.
      { rewrite decide_False by discriminate. rewrite decide_True by reflexivity.
        specialize (IH (MkPk (pk_order s) (pk_propose s) (pk_timeout s ++ [w_hash w]) (pk_cycles s) (pk_stage s) (pk_cand s))
                       ltac:(cbn; lia)). cbn [pk_order pk_propose pk_timeout pk_cycles pk_stage pk_cand] in IH.
        destruct (pick limit (pk_stage s) (pk_cycles s) (keep (surviving q))) as [[o p] [cnt st]].
        rewrite IH. cbn [map]. rewrite <- app_assoc. reflexivity. }
      rewrite decide_True by reflexivity. rewrite decide_False by discriminate.
      assert (El : (cap <=? length (pk_cand s))%nat = false) by (apply Nat.leb_gt; lia). rewrite El. cbn zeta.
      cbn [pick pk_order pk_propose pk_timeout pk_cycles pk_stage pk_cand].
      destruct s as [so sp sm sc ss sd]. cbn [pk_order pk_propose pk_timeout pk_cycles pk_stage pk_cand] in *.
      assert (Hl' : (length (sd ++ [w]) + length q <= cap)%nat) by (rewrite app_length; cbn; lia).
      destruct ss.
      + destruct (limit <? wrap64 (sc + tx_cycle (w_tx w))) eqn:Eo; cbn [rbind stage_next].
        * specialize (IH (MkPk so (sp ++ [w_hash w]) sm (tx_cycle (w_tx w)) ProposeTxs (sd ++ [w])) Hl').
          cbn [pk_order pk_propose pk_timeout pk_cycles pk_stage pk_cand] in IH.
          destruct (pick limit ProposeTxs (tx_cycle (w_tx w)) (keep (surviving q))) as [[o p] [cnt st]].
          rewrite IH, <- !app_assoc. reflexivity.
        * specialize (IH (MkPk (so ++ [w_hash w]) sp sm (wrap64 (sc + tx_cycle (w_tx w))) OrderTxs (sd ++ [w])) Hl').
          cbn [pk_order pk_propose pk_timeout pk_cycles pk_stage pk_cand] in IH.
          destruct (pick limit OrderTxs (wrap64 (sc + tx_cycle (w_tx w))) (keep (surviving q))) as [[o p] [cnt st]].
          rewrite IH, <- !app_assoc. reflexivity.
      + destruct (w_proposed w) eqn:Ep.
        { specialize (IH (MkPk so sp sm sc ProposeTxs (sd ++ [w])) Hl').
          cbn [pk_order pk_propose pk_timeout pk_cycles pk_stage pk_cand] in IH.
          destruct (pick limit ProposeTxs sc (keep (surviving q))) as [[o p] [cnt st]].
          rewrite IH, <- !app_assoc. reflexivity. }
        destruct (limit <? wrap64 (sc + tx_cycle (w_tx w))) eqn:Eo; cbn [rbind stage_next].
        * specialize (IH (MkPk so sp sm (tx_cycle (w_tx w)) Finished (sd ++ [w])) Hl').
          cbn [pk_order pk_propose pk_timeout pk_cycles pk_stage pk_cand] in IH.
          destruct (pick limit Finished (tx_cycle (w_tx w)) (keep (surviving q))) as [[o p] [cnt st]].
          rewrite IH, <- !app_assoc. reflexivity.
        * specialize (IH (MkPk so (sp ++ [w_hash w]) sm (wrap64 (sc + tx_cycle (w_tx w))) ProposeTxs (sd ++ [w])) Hl').
          cbn [pk_order pk_propose pk_timeout pk_cycles pk_stage pk_cand] in IH.
          destruct (pick limit ProposeTxs (wrap64 (sc + tx_cycle (w_tx w))) (keep (surviving q))) as [[o p] [cnt st]].
          rewrite IH, <- !app_assoc. reflexivity.
      + specialize (IH (MkPk so sp sm sc Finished (sd ++ [w])) Hl').
        cbn [pk_order pk_propose pk_timeout pk_cycles pk_stage pk_cand] in IH.
        destruct (pick limit Finished sc (keep (surviving q))) as [[o p] [cnt st]].
        rewrite IH, <- !app_assoc. reflexivity.
  Qed.
End Package.

Lemma package_spec c limit cur tmo : inv c ->
  exists c', tc_package c limit cur tmo
    = (Ok (pick limit OrderTxs (wrap64 0) (filter (fun w => is_timeout (w_tx w) cur tmo = false) (live c))).1, c') /\
    inv c' /\ tc_cap c' = tc_cap c /\
    live c' = filter (fun w => is_timeout (w_tx w) cur tmo = false) (live c) /\
    tc_incumbent c' = live c'.
Proof.
  intros Hi. unfold tc_package. rewrite (inv_cand c Hi).
  pose proof (loop_spec (tc_cap c) limit cur tmo (tc_removed c) (tc_incumbent c)
    (MkPk [] [] [] (wrap64 0) OrderTxs []) ltac:(cbn; apply (inv_cap c Hi))) as L.
  cbn [pk_order pk_propose pk_timeout pk_cycles pk_stage pk_cand app] in L. fold (live c) in L.
  set (kp := filter (fun w => is_timeout (w_tx w) cur tmo = false) (live c)) in *.
  destruct (pick limit OrderTxs (wrap64 0) kp) as [[o p] [cnt st]]. rewrite L. cbn [fold_left pk_order pk_propose pk_timeout fst].
  eexists. split; [reflexivity|]. set (c' := MkTC _ _ _ _ _ _ _).
  assert (Hinc : tc_incumbent c' = kp) by (unfold tc_incumbent, c'; cbn; destruct (tc_zero c); reflexivity).
  assert (Hkin : forall w, w ∈ kp -> w ∈ tc_incumbent c /\ w_id w ∉ tc_removed c).
  { intros w Hw. unfold kp, live in Hw. rewrite !elem_of_list_filter in Hw. tauto. }
  assert (Hlive : live c' = kp).
  { unfold live. rewrite Hinc. change (tc_removed c') with (tc_removed c).
    transitivity (filter (fun _ : wrapper => True) kp).
    - apply filter_ext_in. intros w Hw. specialize (Hkin w Hw). tauto.
    - clear. induction kp as [|x l IH]; [reflexivity|]. rewrite filter_cons_True by exact I. f_equal. exact IH. }
  split; [|split; [reflexivity|split; [exact Hlive|congruence]]].
  constructor.
  - unfold tc_candidate, c'. cbn. destruct (tc_zero c); reflexivity.
  - rewrite Hinc. unfold kp, live. pose proof (inv_ids c Hi) as Hn.
    assert (G : forall l, NoDup (map w_id l) -> forall P `{!forall x, Decision (P x)}, NoDup (map w_id (filter P l))).
    { clear. induction l as [|w l IH]; intros Hn P ?; [constructor|]. cbn in Hn. apply NoDup_cons in Hn as [H1 H2].
      rewrite filter_cons. destruct (decide (P w)); [|apply IH; exact H2]. cbn. constructor; [|apply IH; exact H2].
      intros X. apply H1. apply elem_of_list_fmap in X as (v & E & Hv). rewrite E. apply elem_of_list_filter in Hv as [_ Hv].
      apply elem_of_list_fmap. eauto. }
    apply G, G, Hn.
  - rewrite Hinc. intros w Hw. apply Hkin in Hw as [Hw _]. exact (inv_next c Hi w Hw).
  - exact (inv_rem c Hi).
  - rewrite Hinc. change (tc_cap c') with (tc_cap c). pose proof (inv_cap c Hi). unfold kp, live.
    etransitivity; [apply filter_length|]. etransitivity; [apply filter_length|]. assumption.
  - intros h w. rewrite Hlive. change (tc_map c') with (map_deletes (tc_map c) (map w_hash (filter (fun w => is_timeout (w_tx w) cur tmo = true) (live c)))).
    rewrite map_deletes_lookup. unfold kp. rewrite elem_of_list_filter.
    destruct (decide (h ∈ map w_hash (filter (fun w => is_timeout (w_tx w) cur tmo = true) (live c)))) as [Hh|Hh].
    + split; [discriminate|]. intros [[H1 H2] H3]. apply elem_of_list_fmap in Hh as (v & -> & Hv).
      apply elem_of_list_filter in Hv as [Ht Hv].
      assert (X1 : tc_map c !! w_hash v = Some v) by (apply (inv_map c Hi); auto).
      assert (X2 : tc_map c !! w_hash v = Some w) by (apply (inv_map c Hi); auto). congruence.
    + rewrite (inv_map c Hi h w). split; [|tauto]. intros [H1 H2]. split; [|exact H2]. split; [|exact H1].
      destruct (is_timeout (w_tx w) cur tmo) eqn:E; [|reflexivity]. exfalso. apply Hh. rewrite <- H2.
      apply elem_of_list_fmap. exists w. split; [reflexivity|]. apply elem_of_list_filter. auto.
Qed.
