(** * What the invariants give: no loss, no duplicates, no blocking. *)
From Verif Require Import Base BaseFacts Hex Types Rlp FixedCodec Mempool MempoolFacts MempoolMore MempoolConc MempoolConcFacts.
Local Open Scope nat_scope.

(** ** Why a transaction left the queues *)
Definition expired_by (sched : list label) (w : wrapper) : Prop :=
  exists limit cur tmo, LPackage limit cur tmo ∈ sched /\ is_timeout (w_tx w) cur tmo = true.
Definition flushed_by (sched : list label) (w : wrapper) : Prop :=
  exists hs, LFlush hs ∈ sched /\ w_hash w ∈ hs.

Definition pkg_args (p : pst) : option pargs :=
  match p with PLoop a _ _ | PPopped a _ _ _ | PPush a _ _ _ => Some a | _ => None end.
Definition fl_hashes (f : fst_) : list hash :=
  match f with FGet todo _ => todo | FSet w todo _ => w_hash w :: todo | FDelete _ => [] end.

Record why (sched : list label) (c : cst) : Prop := {
  why_args : forall a, pkg_args (c_pkg c) = Some a -> LPackage (pa_limit a) (pa_cur a) (pa_tmo a) ∈ sched;
  why_fl : forall f h, f ∈ c_fl c -> h ∈ fl_hashes f -> exists hs, LFlush hs ∈ sched /\ h ∈ hs;
  why_known : forall h w, c_map c !! h = Some w -> h = w_hash w /\ exists st, c_ins c !! w_id w = Some (w, st);
  why_flw : forall w todo hs, FSet w todo hs ∈ c_fl c -> exists st, c_ins c !! w_id w = Some (w, st);
  why_removed : forall i, i ∈ c_removed c -> exists w st, c_ins c !! i = Some (w, st) /\ flushed_by sched w;
  why_gone : forall w, w ∈ c_gone c -> w_id w ∈ c_removed c \/ expired_by sched w }.

Definition inext (c c' : cst) : Prop :=
  forall i w st, c_ins c !! i = Some (w, st) -> exists st', c_ins c' !! i = Some (w, st').

Lemma inext_refl c c' : c_ins c' = c_ins c -> inext c c'.
Proof. intros E i w st H. rewrite E. eauto. Qed.

Lemma flushed_mono s l w : flushed_by s w -> flushed_by (s ++ [l]) w.
Proof. intros (hs & H1 & H2). exists hs. split; [apply elem_of_app; auto|exact H2]. Qed.
Lemma expired_mono s l w : expired_by s w -> expired_by (s ++ [l]) w.
Proof. intros (a & b & d & H1 & H2). exists a, b, d. split; [apply elem_of_app; auto|exact H2]. Qed.

(** a step changing only the listed components *)
Lemma why_step s l c c' : why s c -> inext c c' ->
  (forall a, pkg_args (c_pkg c') = Some a -> pkg_args (c_pkg c) = Some a \/ LPackage (pa_limit a) (pa_cur a) (pa_tmo a) = l) ->
  (forall f h, f ∈ c_fl c' -> h ∈ fl_hashes f -> (exists f', f' ∈ c_fl c /\ h ∈ fl_hashes f') \/ exists hs, l = LFlush hs /\ h ∈ hs) ->
  (forall h w, c_map c' !! h = Some w -> c_map c !! h = Some w \/ h = w_hash w /\ exists st, c_ins c' !! w_id w = Some (w, st)) ->
  (forall w todo hs, FSet w todo hs ∈ c_fl c' -> (exists h, c_map c !! h = Some w) \/ exists todo hs, FSet w todo hs ∈ c_fl c) ->
  (forall i, i ∈ c_removed c' -> i ∈ c_removed c \/ exists w todo hs, FSet w todo hs ∈ c_fl c /\ w_id w = i) ->
  (forall i, i ∈ c_removed c -> i ∈ c_removed c') ->
  (forall w, w ∈ c_gone c' -> w ∈ c_gone c \/ w_id w ∈ c_removed c \/
      exists a, pkg_args (c_pkg c) = Some a /\ is_timeout (w_tx w) (pa_cur a) (pa_tmo a) = true) ->
  why (s ++ [l]) c'.
Proof.
  intros Hw Hi Ha Hf Hm Hfw Hr Hr' Hg. constructor.
  - intros a E. apply elem_of_app. apply Ha in E as [E| <-]; [left; exact (why_args s c Hw a E)|right; left].
  - intros f h H1 H2. destruct (Hf f h H1 H2) as [(f' & H3 & H4)|(hs & -> & H3)].
    + destruct (why_fl s c Hw f' h H3 H4) as (hs & H5 & H6). exists hs. split; [apply elem_of_app; auto|exact H6].
    + exists hs. split; [apply elem_of_app; right; left|exact H3].
  - intros h w E. apply Hm in E as [E|E]; [|exact E]. destruct (why_known s c Hw h w E) as (H1 & st & H2).
    split; [exact H1|]. exact (Hi _ _ _ H2).
  - intros w todo hs H. destruct (Hfw w todo hs H) as [(h & E)|(t' & h' & E)].
    + destruct (why_known s c Hw h w E) as (_ & st & H2). exact (Hi _ _ _ H2).
    + destruct (why_flw s c Hw w t' h' E) as (st & H2). exact (Hi _ _ _ H2).
  - intros i H. destruct (Hr i H) as [H1|(w & todo & hs & H1 & <-)].
    + destruct (why_removed s c Hw i H1) as (w & st & H2 & H3). destruct (Hi _ _ _ H2) as [st' H4].
      exists w, st'. split; [exact H4|]. apply flushed_mono, H3.
    + destruct (why_flw s c Hw w todo hs H1) as (st & H2). destruct (Hi _ _ _ H2) as [st' H3].
      exists w, st'. split; [exact H3|]. apply flushed_mono. apply (why_fl s c Hw _ (w_hash w) H1). left.
  - intros w H. destruct (Hg w H) as [H1|[H1|(a & H1 & H2)]].
    + destruct (why_gone s c Hw w H1) as [H2|H2]; [auto|right; apply expired_mono, H2].
    + auto.
    + right. exists (pa_limit a), (pa_cur a), (pa_tmo a). split; [|exact H2]. apply elem_of_app. left. exact (why_args s c Hw a H1).
Qed.

Lemma why_new cap : why [] (c_new cap).
Proof.
  constructor; cbn.
  - discriminate.
  - intros f h X. inversion X.
  - intros h w X. rewrite lookup_empty in X. discriminate.
  - intros w t h X. inversion X.
  - intros i X. apply elem_of_empty in X. contradiction.
  - intros w X. inversion X.
Qed.

Lemma list_insert_in {A} (l : list A) i x y : y ∈ <[i := x]> l -> y = x \/ y ∈ l.
Proof.
  intros H. apply elem_of_list_lookup in H as [j H]. destruct (decide (i = j)) as [->|ne].
  - left. destruct (decide (j < length l)) as [lt|ge].
    + rewrite list_lookup_insert in H by exact lt. congruence.
    + rewrite list_insert_ge in H by lia. apply lookup_lt_Some in H. lia.
  - right. rewrite list_lookup_insert_ne in H by exact ne. eapply elem_of_list_lookup_2; exact H.
Qed.

Lemma c_step_why s c l : cinv c -> why s c -> why (s ++ [l]) (c_step c l).
Proof.
  intros Hc Hw. destruct l as [t b|i|limit cur tmo|k|hs|i k]; cbn [c_step].
  - apply (why_step s _ c); cbn; auto.
    + intros i w st E. exists st. apply lookup_app_l_Some. exact E.
    + eauto.
    + eauto.
  - unfold ins_step. destruct (c_ins c !! i) as [[w st]|] eqn:Hi.
    2:{ apply (why_step s _ c); cbn; eauto. intros ???; eauto. }
    assert (Hlt : i < length (c_ins c)) by (eapply lookup_lt_Some; exact Hi).
    assert (Hid : w_id w = i) by exact (ci_ids c Hc _ _ _ Hi).
    assert (Hx : forall st', forall j x s0, c_ins c !! j = Some (x, s0) -> exists st2, <[i:=(w, st')]> (c_ins c) !! j = Some (x, st2)).
    { intros st' j x s0 E. destruct (decide (j = i)) as [->|ne].
      - rewrite list_lookup_insert by exact Hlt. rewrite Hi in E. injection E as <- <-. eauto.
      - rewrite list_lookup_insert_ne by congruence. eauto. }
    assert (Hsame : forall c', c_pkg c' = c_pkg c -> c_fl c' = c_fl c -> c_removed c' = c_removed c -> c_gone c' = c_gone c ->
      (exists st', c_ins c' = <[i := (w, st')]> (c_ins c)) ->
      (forall h x, c_map c' !! h = Some x -> c_map c !! h = Some x \/ h = w_hash x /\ x = w) -> why (s ++ [LIns i]) c').
    { intros c' E1 E2 E3 E4 [st' E5] E6. apply (why_step s _ c); rewrite ?E1, ?E2, ?E3, ?E4; auto.
      - intros j x s0 E. rewrite E5. eauto.
      - eauto.
      - intros h x E. destruct (E6 h x E) as [H|[-> ->]]; [auto|]. right. split; [reflexivity|]. rewrite Hid, E5, list_lookup_insert by exact Hlt. eauto.
      - eauto. }
    destruct st as [| | |z|ok|ok|r].
    + destruct (c_map c !! w_hash w); apply Hsame; cbn; eauto.
      intros h x E. destruct (decide (h = w_hash w)) as [->|ne].
      * rewrite lookup_insert in E. injection E as <-. auto.
      * rewrite lookup_insert_ne in E by congruence. auto.
    + apply Hsame; cbn; eauto.
    + apply Hsame; cbn; eauto.
    + destruct (c_full c z); apply Hsame; cbn; eauto.
    + apply Hsame; cbn; eauto.
    + destruct ok; apply Hsame; cbn; eauto. intros h x E. apply lookup_delete_Some in E as [_ E]. auto.
    + apply (why_step s _ c); cbn; eauto. intros ???; eauto.
  - destruct (c_pkg c) eqn:Ep; (apply (why_step s _ c); cbn; rewrite ?Ep; eauto; [intros ???; eauto|..]).
    cbn. intros a [= <-]. auto.
  - assert (Hsame : forall c', c_ins c' = c_ins c -> c_fl c' = c_fl c -> c_removed c' = c_removed c ->
      (forall a, pkg_args (c_pkg c') = Some a -> pkg_args (c_pkg c) = Some a) ->
      (forall w, w ∈ c_gone c' -> w ∈ c_gone c \/ w_id w ∈ c_removed c \/
        exists a, pkg_args (c_pkg c) = Some a /\ is_timeout (w_tx w) (pa_cur a) (pa_tmo a) = true) ->
      (forall h x, c_map c' !! h = Some x -> c_map c !! h = Some x) -> why (s ++ [LPkg k]) c').
    { intros c' E1 E2 E3 E4 E5 E6. apply (why_step s _ c); rewrite ?E2, ?E3; auto.
      - apply inext_refl, E1.
      - eauto.
      - eauto. }
    unfold pkg_step. destruct (c_pkg c) as [|a z x|a z x w|a z x w|z x|x|x|x w|x rest] eqn:Ep.
    + apply Hsame; cbn; auto. rewrite Ep. auto.
    + destruct (c_queue c z); apply Hsame; cbn; auto; discriminate.
    + destruct (decide (w_id w ∈ c_removed c)); [|destruct (is_timeout (w_tx w) (pa_cur a) (pa_tmo a)) eqn:Et].
      * apply Hsame; cbn; auto. intros y Hy. apply elem_of_app in Hy as [Hy|Hy]; [auto|].
        apply elem_of_list_singleton in Hy as ->. auto.
      * apply Hsame; cbn; auto. intros y Hy. apply elem_of_app in Hy as [Hy|Hy]; [auto|].
        apply elem_of_list_singleton in Hy as ->. eauto.
      * apply Hsame; cbn; auto.
    + destruct (c_full c (negb z)); apply Hsame; cbn; auto; discriminate.
    + apply Hsame; cbn; auto; discriminate.
    + destruct (decide _); apply Hsame; cbn; rewrite ?Ep; auto; discriminate.
    + destruct (c_queue c _); apply Hsame; cbn; auto; discriminate.
    + destruct (c_full c _); apply Hsame; cbn; auto; discriminate.
    + destruct rest as [|h0 rest0]; [apply Hsame; cbn; auto; discriminate|].
      destruct ((h0 :: rest0) !! k); apply Hsame; cbn; rewrite ?Ep; auto; try discriminate.
      intros h' y E. apply lookup_delete_Some in E as [_ E]. exact E.
  - apply (why_step s _ c); cbn; auto.
    + intros ???; eauto.
    + intros f h H1 H2. apply elem_of_app in H1 as [H1|H1]; [eauto|]. apply elem_of_list_singleton in H1 as ->. cbn in H2. eauto.
    + intros w todo hs' H. apply elem_of_app in H as [H|H]; [eauto|]. apply elem_of_list_singleton in H. discriminate.
  - unfold fl_step. destruct (c_fl c !! i) as [f|] eqn:Hi.
    2:{ apply (why_step s _ c); cbn; eauto. intros ???; eauto. }
    pose proof (elem_of_list_lookup_2 _ _ _ Hi) as Hfi.
    assert (Hsame : forall c' f', c_ins c' = c_ins c -> c_pkg c' = c_pkg c -> c_gone c' = c_gone c ->
      c_fl c' = <[i := f']> (c_fl c) -> (forall h, h ∈ fl_hashes f' -> h ∈ fl_hashes f) ->
      (forall w todo hs, f' = FSet w todo hs -> exists h, c_map c !! h = Some w) ->
      (forall h x, c_map c' !! h = Some x -> c_map c !! h = Some x) ->
      (forall j, j ∈ c_removed c' <-> j ∈ c_removed c \/ exists w todo hs, f = FSet w todo hs /\ j = w_id w) ->
      why (s ++ [LFl i k]) c').
    { intros c' f' E1 E2 E3 E4 E5 E6 E7 E8. apply (why_step s _ c); rewrite ?E2, ?E3, ?E4; auto.
      - apply inext_refl, E1.
      - intros g h H1 H2. apply list_insert_in in H1 as [->|H1]; eauto.
      - intros w todo hs H. apply list_insert_in in H as [H|H]; eauto.
      - intros j H. apply E8 in H as [H|(w & todo & hs & -> & ->)]; [auto|]. right. eauto.
      - intros j H. apply E8. auto. }
    destruct f as [[|h todo] hs|w todo hs|rest].
    + eapply Hsame; cbn; try reflexivity; auto.
      * discriminate.
      * intros j. split; [auto|]. intros [H|(?&?&?&?&?)]; [auto|discriminate].
    + destruct (c_map c !! h) as [w|] eqn:Em.
      * eapply Hsame; cbn; try reflexivity; auto.
        -- intros h' Hh. rewrite (proj1 (why_known s c Hw h w Em)). exact Hh.
        -- intros w' ? ? [= <- _ _]. eauto.
        -- intros j. split; [auto|]. intros [H|(?&?&?&?&?)]; [auto|discriminate].
      * eapply Hsame; cbn; try reflexivity; auto.
        -- intros h' Hh. right. exact Hh.
        -- discriminate.
        -- intros j. split; [auto|]. intros [H|(?&?&?&?&?)]; [auto|discriminate].
    + eapply Hsame; cbn; try reflexivity; auto.
      * intros h' Hh. right. exact Hh.
      * discriminate.
      * intros j. rewrite elem_of_union, elem_of_singleton. split.
        -- intros [-> |H]; [|auto]. right. eauto.
        -- intros [H|(? & ? & ? & [= -> -> ->] & ->)]; auto.
    + destruct (rest !! k) as [h|].
      2:{ apply (why_step s _ c); cbn; eauto. intros ???; eauto. }
      eapply Hsame; cbn; try reflexivity; auto.
      * discriminate.
      * intros h' y E. apply lookup_delete_Some in E as [_ E]. exact E.
      * intros j. split; [auto|]. intros [H|(?&?&?&?&?)]; [auto|discriminate].
Qed.

Lemma run_snoc c s l : c_run c (s ++ [l]) = c_step (c_run c s) l.
Proof. unfold c_run. rewrite fold_left_app. reflexivity. Qed.

Lemma run_why cap s : why s (c_run (c_new cap) s).
Proof.
  induction s as [|l s IH] using rev_ind; [exact (why_new cap)|]. rewrite run_snoc. apply c_step_why; [|exact IH].
  apply c_run_inv, cinv_new.
Qed.

(** ** Schedules without flushes: the map and the queues agree *)
Definition is_flush (l : label) : bool := match l with LFlush _ => true | _ => false end.
Definition mid (st : ist) : bool :=
  match st with IMapped | ICounted | IRole _ | IPushed false | IUncounted false => true | _ => false end.
Definition pending (p : pst) : list hash :=
  match p with
  | PIdle => [] | PDelete _ rest => rest
  | PLoop _ _ s | PPopped _ _ s _ | PPush _ _ s _ | PSwitch _ s | PWait s | PDrain s | PDrained s _ => pk_timeout s
  end.
Definition settled (p : pst) : option pk :=
  match p with PSwitch _ s | PWait s | PDrain s | PDrained s _ | PDelete s _ => Some s | _ => None end.
Definition live (c : cst) : list wrapper := c_q0 c ++ c_q1 c ++ held (c_pkg c).

Record dinv (c : cst) : Prop := {
  d_fl : c_fl c = [];
  d_removed : c_removed c = ∅;
  d_live : forall w, w ∈ live c -> c_map c !! w_hash w = Some w;
  d_mid : forall i w st, c_ins c !! i = Some (w, st) -> mid st = true -> c_map c !! w_hash w = Some w;
  d_nodup : NoDup (pending (c_pkg c));
  d_pend : forall h, h ∈ pending (c_pkg c) -> exists w, w ∈ c_gone c /\ c_map c !! h = Some w;
  d_settled : forall s, settled (c_pkg c) = Some s -> NoDup (pk_order s ++ pk_propose s);
  d_res : forall o q, (o, q) ∈ c_results c -> NoDup (o ++ q) }.

Lemma live_in c w z : w ∈ live c <-> w ∈ c_queue c z \/ w ∈ c_queue c (negb z) \/ w ∈ held (c_pkg c).
Proof. unfold live. rewrite !elem_of_app. destruct z; cbn; tauto. Qed.
Lemma live_cnt c i z : cnt i (live c) = cnt i (c_queue c z) + cnt i (c_queue c (negb z)) + cnt i (held (c_pkg c)).
Proof. unfold live. rewrite !cnt_app. pose proof (queue_swap c z i). lia. Qed.
Lemma allw_live c i : cnt i (allw c) = cnt i (live c) + cnt i (c_gone c) + cnt i (c_over c).
Proof. unfold allw, live. rewrite !cnt_app. lia. Qed.
Lemma live_not_gone c w : cinv c -> w ∈ live c -> w ∈ c_gone c -> False.
Proof.
  intros Hc H1 H2. pose proof (ci_once c (w_id w) Hc) as X. rewrite allw_live in X.
  pose proof (cnt_in _ _ w H1 eq_refl). pose proof (cnt_in _ _ w H2 eq_refl). lia.
Qed.
Lemma pushed_mid st : pushed st = true -> mid st = true -> False.
Proof. destruct st as [| | |z|[]|[]|[]]; discriminate. Qed.
Lemma allw_not_mid c w st : cinv c -> w ∈ allw c -> c_ins c !! w_id w = Some (w, st) -> mid st = true -> False.
Proof.
  intros Hc Hw E M. destruct (ci_pushed c w Hc Hw) as (st' & E' & P). rewrite E in E'. injection E' as <-.
  exact (pushed_mid st P M).
Qed.
Lemma live_allw c w : w ∈ live c -> w ∈ allw c.
Proof. unfold live, allw. rewrite !elem_of_app. tauto. Qed.
Lemma gone_allw c w : w ∈ c_gone c -> w ∈ allw c.
Proof. unfold allw. rewrite !elem_of_app. tauto. Qed.

(** Deleting a hash that no live wrapper and no inserter needs *)
Lemma dinv_new cap : dinv (c_new cap).
Proof.
  constructor; cbn; auto.
  - intros w X. inversion X.
  - discriminate.
  - constructor.
  - intros h X. inversion X.
  - discriminate.
  - intros o q X. inversion X.
Qed.

Lemma d_ins_step c i : cinv c -> dinv c -> dinv (ins_step c i).
Proof.
  intros Hc Hd. unfold ins_step. destruct (c_ins c !! i) as [[w st]|] eqn:Hi; [|exact Hd].
  assert (Hlt : i < length (c_ins c)) by (eapply lookup_lt_Some; exact Hi).
  assert (Hid : w_id w = i) by exact (ci_ids c Hc _ _ _ Hi).
  assert (Hsame : forall c' st', c_fl c' = c_fl c -> c_removed c' = c_removed c -> c_pkg c' = c_pkg c -> c_gone c' = c_gone c ->
    c_results c' = c_results c -> c_ins c' = <[i := (w, st')]> (c_ins c) ->
    (forall x, x ∈ live c' -> x ∈ live c \/ x = w /\ mid st = true) ->
    (mid st' = true -> mid st = true) -> c_map c' = c_map c -> dinv c').
  { intros c' st' E1 E2 E3 E4 E5 E6 E7 E8 E9. constructor; rewrite ?E1, ?E2, ?E3, ?E4, ?E5, ?E9.
    - exact (d_fl c Hd).
    - exact (d_removed c Hd).
    - intros x Hx. destruct (E7 x Hx) as [H|[-> H]]; [exact (d_live c Hd x H)|exact (d_mid c Hd i w st Hi H)].
    - intros j x s E M. rewrite E6 in E. destruct (decide (j = i)) as [->|ne].
      + rewrite list_lookup_insert in E by exact Hlt. injection E as <- <-. exact (d_mid c Hd i w st Hi (E8 M)).
      + rewrite list_lookup_insert_ne in E by congruence. exact (d_mid c Hd j x s E M).
    - exact (d_nodup c Hd).
    - exact (d_pend c Hd).
    - exact (d_settled c Hd).
    - exact (d_res c Hd). }
  destruct st as [| | |z|ok|ok|r].
  - destruct (c_map c !! w_hash w) as [v|] eqn:Em.
    { eapply Hsame; cbn; try reflexivity; auto; discriminate. }
    constructor; cbn.
    + exact (d_fl c Hd).
    + exact (d_removed c Hd).
    + intros x Hx. pose proof (d_live c Hd x Hx) as E. rewrite lookup_insert_ne; [exact E|]. congruence.
    + intros j x s E M. destruct (decide (j = i)) as [->|ne].
      * rewrite list_lookup_insert in E by exact Hlt. injection E as <- <-. apply lookup_insert.
      * rewrite list_lookup_insert_ne in E by congruence. pose proof (d_mid c Hd j x s E M) as X.
        rewrite lookup_insert_ne; [exact X|]. congruence.
    + exact (d_nodup c Hd).
    + intros h Hh. destruct (d_pend c Hd h Hh) as (x & H1 & H2). exists x. split; [exact H1|].
      rewrite lookup_insert_ne; [exact H2|]. congruence.
    + exact (d_settled c Hd).
    + exact (d_res c Hd).
  - eapply Hsame; cbn; try reflexivity; auto.
  - eapply Hsame; cbn; try reflexivity; auto.
  - destruct (c_full c z).
    + eapply Hsame; cbn; try reflexivity; auto.
    + eapply Hsame; try reflexivity; auto. intros x. rewrite !(live_in _ x z).
      change (c_queue (c_set_ins ?a ?b) ?y) with (c_queue a y). rewrite queue_set_same, queue_set_other, elem_of_app, elem_of_list_singleton.
      cbn. tauto.
  - eapply Hsame; cbn; try reflexivity; auto.
  - destruct ok.
    + eapply Hsame; cbn; try reflexivity; auto; discriminate.
    + pose proof (d_mid c Hd i w _ Hi eq_refl) as Ew.
      assert (Hne : forall x, c_map c !! w_hash x = Some x -> x <> w -> delete (w_hash w) (c_map c) !! w_hash x = Some x).
      { intros x E ne. rewrite lookup_delete_ne; [exact E|]. congruence. }
      constructor; cbn.
      * exact (d_fl c Hd).
      * exact (d_removed c Hd).
      * intros x Hx. apply Hne; [exact (d_live c Hd x Hx)|]. intros ->.
        apply (allw_not_mid c w (IUncounted false) Hc (live_allw c w Hx)); [rewrite Hid; exact Hi|reflexivity].
      * intros j x s E M. destruct (decide (j = i)) as [->|ne].
        -- rewrite list_lookup_insert in E by exact Hlt. injection E as <- <-. discriminate M.
        -- rewrite list_lookup_insert_ne in E by congruence. apply Hne; [exact (d_mid c Hd j x s E M)|]. intros ->.
           apply ne. rewrite <- Hid. symmetry. exact (ci_ids c Hc _ _ _ E).
      * exact (d_nodup c Hd).
      * intros h Hh. destruct (d_pend c Hd h Hh) as (x & H1 & H2). exists x. split; [exact H1|].
        rewrite lookup_delete_ne; [exact H2|]. intros <-. rewrite Ew in H2. injection H2 as <-.
        apply (allw_not_mid c w (IUncounted false) Hc (gone_allw c w H1)); [rewrite Hid; exact Hi|reflexivity].
      * exact (d_settled c Hd).
      * exact (d_res c Hd).
  - exact Hd.
Qed.

Lemma dinv_pkg c c' : cinv c -> dinv c -> c_fl c' = c_fl c -> c_removed c' = c_removed c -> c_ins c' = c_ins c ->
  c_map c' = c_map c -> (forall x, x ∈ live c' -> x ∈ live c) -> (forall x, x ∈ c_gone c -> x ∈ c_gone c') ->
  NoDup (pending (c_pkg c')) ->
  (forall h, h ∈ pending (c_pkg c') -> exists w, w ∈ c_gone c' /\ c_map c !! h = Some w) ->
  (forall s, settled (c_pkg c') = Some s -> NoDup (pk_order s ++ pk_propose s)) ->
  (forall o q, (o, q) ∈ c_results c' -> NoDup (o ++ q)) -> dinv c'.
Proof.
  intros Hc Hd E1 E2 E3 E4 E5 E6 E7 E8 E9 E10. constructor; rewrite ?E1, ?E2, ?E3, ?E4; auto.
  - exact (d_fl c Hd).
  - exact (d_removed c Hd).
  - intros x Hx. exact (d_live c Hd x (E5 x Hx)).
  - exact (d_mid c Hd).
Qed.

Lemma picked_nodup c s z : cinv c -> dinv c -> picked s -> pk_cand s `sublist_of` c_queue c z ->
  NoDup (pk_order s ++ pk_propose s).
Proof.
  intros Hc Hd (k1 & k2 & E1 & E2 & E3 & E4) Hs. rewrite E1, E2, <- map_app.
  assert (Hsub : (k1 ++ k2) `sublist_of` c_queue c z) by (etransitivity; eassumption).
  eapply sublist_nodup; [apply (fmap_sublist w_hash); exact Hsub|].
  assert (Hids : NoDup (map w_id (c_queue c z))).
  { apply cnt_nodup. intros i. pose proof (ci_once c i Hc) as X. rewrite (allw_cnt c i z) in X. lia. }
  assert (Hmap : forall w, w ∈ c_queue c z -> c_map c !! w_hash w = Some w).
  { intros w Hw. apply (d_live c Hd). apply (live_in c w z). auto. }
  clear - Hids Hmap. induction (c_queue c z) as [|w q IH]; cbn in *; [constructor|]. apply NoDup_cons in Hids as [N1 N2].
  constructor.
  - intros X. apply elem_of_list_fmap in X as (v & Ev & Hv). apply N1. apply elem_of_list_fmap. exists v. split; [|exact Hv].
    assert (X : Some w = Some v); [|congruence]. rewrite <- (Hmap w) by left. rewrite Ev. apply Hmap. right. exact Hv.
  - apply IH; [exact N2|]. intros v Hv. apply Hmap. right. exact Hv.
Qed.

Lemma take_drop_nodup {A} (l : list A) k h : l !! k = Some h -> NoDup l ->
  NoDup (take k l ++ drop (S k) l) /\ h ∉ take k l ++ drop (S k) l /\ (forall x, x ∈ take k l ++ drop (S k) l -> x ∈ l).
Proof.
  intros E N. rewrite <- (take_drop_middle l k h E) in N.
  apply NoDup_app in N as (N1 & N2 & N3). apply NoDup_cons in N3 as [N3 N4].
  split; [|split].
  - apply NoDup_app. split; [exact N1|]. split; [|exact N4]. intros x Hx Hy. apply (N2 x Hx). right. exact Hy.
  - rewrite elem_of_app. intros [X|X]; [|exact (N3 X)]. apply (N2 h X). left.
  - intros x. rewrite <- (take_drop_middle l k h E) at 3. rewrite !elem_of_app, elem_of_cons. tauto.
Qed.

Ltac dparts z Ep Eq :=
  rewrite ?(live_in _ _ z);
  repeat change (c_queue (c_set_pkg ?a ?b) ?y) with (c_queue a y);
  repeat change (c_queue (c_add_gone ?a ?b) ?y) with (c_queue a y);
  repeat change (c_queue (c_add_over ?a ?b) ?y) with (c_queue a y);
  cbn [c_set_pkg c_set_queue c_add_gone c_add_over c_pkg held];
  rewrite ?queue_set_same, ?queue_set_other, ?negb_involutive, ?Eq, ?Ep, ?elem_of_app, ?elem_of_cons, ?elem_of_nil;
  cbn [held]; rewrite ?elem_of_cons, ?elem_of_nil.

Lemma d_pkg_step c k : cinv c -> dinv c -> dinv (pkg_step c k).
Proof.
  intros Hc Hd. pose proof (ci_pkg c Hc) as P. unfold pkg_inv in P.
  pose proof (d_nodup c Hd) as Dn. pose proof (d_pend c Hd) as Dp. pose proof (d_settled c Hd) as Ds. pose proof (d_res c Hd) as Dr.
  unfold pkg_step. destruct (c_pkg c) as [|a z s|a z s w|a z s w|z s|s|s|s w|s rest] eqn:Ep; cbn [pending settled] in *.
  - exact Hd.
  - destruct P as (P1 & P2 & P3 & P4). destruct (c_queue c z) as [|w q] eqn:Eq.
    + apply (dinv_pkg c); auto; [intros x; dparts z Ep Eq; tauto|]. cbn. intros s' [= <-].
      exact (picked_nodup c s (negb z) Hc Hd P3 P4).
    + apply (dinv_pkg c); auto. intros x; dparts z Ep Eq; tauto.
  - destruct P as (P1 & P2 & P3 & P4). destruct (decide (w_id w ∈ c_removed c)) as [X|_].
    { rewrite (d_removed c Hd) in X. apply elem_of_empty in X. contradiction. }
    assert (Hw : w ∈ live c) by (apply (live_in c w z); rewrite Ep; right; right; left).
    destruct (is_timeout _ _ _).
    + apply (dinv_pkg c); auto.
      * intros x; dparts z Ep Ep; tauto.
      * cbn. intros x Hx. apply elem_of_app. auto.
      * cbn. apply NoDup_app. split; [exact Dn|]. split; [|apply NoDup_singleton]. intros h Hh Hx.
        apply elem_of_list_singleton in Hx as ->. destruct (Dp _ Hh) as (v & V1 & V2). rewrite (d_live c Hd w Hw) in V2.
        injection V2 as <-. exact (live_not_gone c w Hc Hw V1).
      * cbn. intros h Hh. apply elem_of_app in Hh as [Hh|Hh].
        -- destruct (Dp h Hh) as (v & V1 & V2). exists v. split; [apply elem_of_app; auto|exact V2].
        -- apply elem_of_list_singleton in Hh as ->. exists w. split; [apply elem_of_app; right; left|]. exact (d_live c Hd w Hw).
    + apply (dinv_pkg c); auto. intros x; dparts z Ep Ep; tauto.
  - destruct P as (P1 & P2 & P3 & P4). destruct (c_full c (negb z)).
    + apply (dinv_pkg c); auto; [intros x; dparts z Ep Ep; tauto|constructor|intros h X; inversion X].
    + destruct (pick_picked (pa_limit a) w s P3) as (_ & _ & Q3).
      apply (dinv_pkg c); auto; [intros x; dparts (negb z) Ep Ep; tauto|cbn; rewrite Q3; auto..].
  - apply (dinv_pkg c); auto. intros x; unfold live; cbn; rewrite Ep; auto.
  - destruct (decide _); [|exact Hd]. apply (dinv_pkg c); auto. intros x; unfold live; cbn; rewrite Ep; auto.
  - destruct (c_queue c (negb (c_zero c))) as [|w q] eqn:Eq.
    + apply (dinv_pkg c); auto. intros x; unfold live; cbn; rewrite Ep; auto.
    + apply (dinv_pkg c); auto. intros x; dparts (negb (c_zero c)) Ep Eq; tauto.
  - destruct (c_full c (c_zero c)).
    + apply (dinv_pkg c); auto. intros x; dparts (c_zero c) Ep Ep; tauto.
    + apply (dinv_pkg c); auto. intros x; dparts (c_zero c) Ep Ep; tauto.
  - destruct rest as [|h0 rest0].
    + apply (dinv_pkg c); auto; cbn; try discriminate.
      * intros x; unfold live; cbn; rewrite Ep; auto.
      * intros o q H. apply elem_of_app in H as [H|H]; [exact (Dr o q H)|]. apply elem_of_list_singleton in H.
        injection H as -> ->. exact (Ds s eq_refl).
    + destruct ((h0 :: rest0) !! k) as [h|] eqn:Ek; [|exact Hd].
      destruct (take_drop_nodup _ k h Ek Dn) as (N1 & N2 & N3).
      destruct (Dp h (elem_of_list_lookup_2 _ _ _ Ek)) as (v & V1 & V2).
      assert (Hne : forall x, c_map c !! w_hash x = Some x -> x <> v -> delete h (c_map c) !! w_hash x = Some x).
      { intros x E ne. rewrite lookup_delete_ne; [exact E|]. congruence. }
      constructor; cbn [c_set_pkg c_set_map c_fl c_removed c_map c_ins c_pkg c_gone c_results pending settled].
      * exact (d_fl c Hd).
      * exact (d_removed c Hd).
      * intros x Hx. assert (Hx' : x ∈ live c) by (unfold live in *; cbn in Hx; rewrite Ep; exact Hx).
        apply Hne; [exact (d_live c Hd x Hx')|]. intros ->. exact (live_not_gone c v Hc Hx' V1).
      * intros j x st E M. apply Hne; [exact (d_mid c Hd j x st E M)|]. intros ->.
        pose proof (ci_ids c Hc _ _ _ E) as Hj. rewrite <- Hj in E.
        exact (allw_not_mid c v st Hc (gone_allw c v V1) E M).
      * exact N1.
      * intros h' Hh. destruct (Dp h' (N3 h' Hh)) as (u & U1 & U2). exists u. split; [exact U1|].
        rewrite lookup_delete_ne; [exact U2|]. intros <-. exact (N2 Hh).
      * exact Ds.
      * exact Dr.
Qed.

Lemma d_step c l : is_flush l = false -> cinv c -> dinv c -> dinv (c_step c l).
Proof.
  intros Hl Hc Hd. destruct l as [t b|i|limit cur tmo|k|hs|i k]; cbn [c_step].
  - constructor; cbn.
    + exact (d_fl c Hd).
    + exact (d_removed c Hd).
    + exact (d_live c Hd).
    + intros i w st E M. apply lookup_snoc in E as [E|[_ E]]; [exact (d_mid c Hd _ _ _ E M)|]. injection E as _ ->. discriminate M.
    + exact (d_nodup c Hd).
    + exact (d_pend c Hd).
    + exact (d_settled c Hd).
    + exact (d_res c Hd).
  - apply d_ins_step; assumption.
  - destruct (c_pkg c) eqn:Ep; try exact Hd. apply (dinv_pkg c); auto; cbn; try discriminate.
    + intros x; unfold live; cbn; rewrite Ep; auto.
    + constructor.
    + intros h X. inversion X.
    + exact (d_res c Hd).
  - apply d_pkg_step; assumption.
  - discriminate Hl.
  - unfold fl_step. rewrite (d_fl c Hd). exact Hd.
Qed.

Lemma d_run cap s : existsb is_flush s = false -> dinv (c_run (c_new cap) s).
Proof.
  induction s as [|l s IH] using rev_ind; intros H; [exact (dinv_new cap)|]. rewrite existsb_app in H.
  apply orb_false_iff in H as [H1 H2]. cbn in H2. rewrite orb_false_r in H2. rewrite run_snoc.
  apply d_step; [exact H2| |exact (IH H1)]. apply c_run_inv, cinv_new.
Qed.
