(** * Invariants of all schedules. *)
From Verif Require Import Base BaseFacts Hex Types Rlp FixedCodec Mempool MempoolFacts MempoolMore MempoolConc.
Local Open Scope nat_scope.

Definition pushed (st : ist) : bool :=
  match st with IPushed true | IUncounted true | IDone (Ok _) => true | _ => false end.
Definition counted (st : ist) : bool :=
  match st with ICounted | IRole _ | IPushed _ => true | _ => false end.
Definition held (p : pst) : list wrapper :=
  match p with PPopped _ _ _ w | PPush _ _ _ w | PDrained _ w => [w] | _ => [] end.

Definition cnt (i : nat) (l : list wrapper) : nat := length (filter (fun w => w_id w = i) l).
Lemma cnt_app i l k : cnt i (l ++ k) = cnt i l + cnt i k.
Proof. unfold cnt. rewrite filter_app, app_length. reflexivity. Qed.
Lemma cnt_cons i w l : cnt i (w :: l) = (if decide (w_id w = i) then 1 else 0) + cnt i l.
Proof. unfold cnt. rewrite filter_cons. destruct (decide _); reflexivity. Qed.
Lemma cnt_nil i : cnt i [] = 0. Proof. reflexivity. Qed.
Lemma cnt_in i l w : w ∈ l -> w_id w = i -> 1 <= cnt i l.
Proof.
  intros H <-. apply elem_of_list_split in H as (a & b & ->). rewrite cnt_app, cnt_cons, decide_True by reflexivity. lia.
Qed.
Lemma cnt_in' i l : 1 <= cnt i l -> exists w, w ∈ l /\ w_id w = i.
Proof.
  unfold cnt. destruct (filter _ l) as [|w k] eqn:E; cbn; [lia|]. intros _. exists w.
  assert (X : w ∈ filter (fun w => w_id w = i) l) by (rewrite E; left). apply elem_of_list_filter in X. tauto.
Qed.
Lemma cnt_nodup l : (forall i, cnt i l <= 1) -> NoDup (map w_id l).
Proof.
  induction l as [|w l IH]; intros H; cbn; constructor.
  - intros X. apply elem_of_list_fmap in X as (v & E & Hv). specialize (H (w_id w)). rewrite cnt_cons, decide_True in H by reflexivity.
    pose proof (cnt_in (w_id w) l v Hv (eq_sym E)). lia.
  - apply IH. intros i. specialize (H i). rewrite cnt_cons in H. lia.
Qed.

Definition pushedn (l : list (wrapper * ist)) (i : nat) : nat :=
  match l !! i with Some (_, st) => if pushed st then 1 else 0 | None => 0 end.
Definition countedn (l : list (wrapper * ist)) : nat := length (filter (fun x => counted x.2 = true) l).
Definition b2n (b : bool) : nat := if b then 1 else 0.

Lemma pushedn_set l i x st w st' j : l !! i = Some (x, st) ->
  pushedn (<[i := (w, st')]> l) j = if decide (j = i) then b2n (pushed st') else pushedn l j.
Proof.
  intros H. unfold pushedn. destruct (decide (j = i)) as [->|ne].
  - rewrite list_lookup_insert by (eapply lookup_lt_Some; exact H). destruct (pushed st'); reflexivity.
  - rewrite list_lookup_insert_ne by congruence. reflexivity.
Qed.
Lemma countedn_set l i x st w st' : l !! i = Some (x, st) ->
  countedn (<[i := (w, st')]> l) + b2n (counted st) = countedn l + b2n (counted st').
Proof.
  intros H. unfold countedn. rewrite insert_take_drop by (eapply lookup_lt_Some; exact H).
  assert (E : length (filter (fun x : wrapper * ist => counted x.2 = true) l) =
    length (filter (fun x : wrapper * ist => counted x.2 = true) (take i l ++ (x, st) :: drop (S i) l)))
    by (rewrite (take_drop_middle l i _ H); reflexivity).
  rewrite E, !filter_app, !filter_cons, !app_length. cbn [snd].
  destruct (counted st), (counted st'); cbn [decide_rel]; repeat (destruct (decide _); try discriminate); cbn [length]; unfold b2n; try lia; congruence.
Qed.
Lemma countedn_zero l i w st : countedn l = 0 -> l !! i = Some (w, st) -> counted st = false.
Proof.
  intros H0 H. destruct (counted st) eqn:E; [exfalso|reflexivity]. unfold countedn in H0.
  apply elem_of_list_lookup_2 in H. assert (X : (w, st) ∈ filter (fun x => counted x.2 = true) l) by (apply elem_of_list_filter; auto).
  destruct (filter _ l); [inversion X|discriminate H0].
Qed.

Definition allw (c : cst) : list wrapper := c_q0 c ++ c_q1 c ++ held (c_pkg c) ++ c_gone c ++ c_over c.

(** What a package under way has picked *)
Definition picked (s : pk) : Prop :=
  exists k1 k2, pk_order s = map w_hash k1 /\ pk_propose s = map w_hash k2 /\ (k1 ++ k2) `sublist_of` pk_cand s /\
    (pk_stage s = OrderTxs -> k2 = []).
Definition good (c : cst) (o q : list hash) : Prop :=
  exists k, o ++ q = map w_hash k /\ NoDup (map w_id k) /\
    forall w, w ∈ k -> exists st, c_ins c !! w_id w = Some (w, st) /\ pushed st = true.

Definition roles_ok (c : cst) : Prop := forall i w z, c_ins c !! i = Some (w, IRole z) -> z = c_zero c.

Definition pkg_inv (c : cst) : Prop :=
  match c_pkg c with
  | PIdle => roles_ok c /\ (c_over c = [] -> c_queue c (negb (c_zero c)) = [])
  | PLoop _ z s | PPopped _ z s _ | PPush _ z s _ =>
      roles_ok c /\ z = c_zero c /\ picked s /\ pk_cand s `sublist_of` c_queue c (negb z)
  | PSwitch z s => roles_ok c /\ z = c_zero c /\ good c (pk_order s) (pk_propose s)
  | PWait s => good c (pk_order s) (pk_propose s)
  | PDrain s | PDrained s _ => roles_ok c /\ good c (pk_order s) (pk_propose s)
  | PDelete s _ => roles_ok c /\ good c (pk_order s) (pk_propose s) /\ c_queue c (negb (c_zero c)) = []
  end.

Record cinv (c : cst) : Prop := {
  ci_cnt : forall i, cnt i (allw c) = pushedn (c_ins c) i;
  ci_known : forall w, w ∈ allw c -> exists st, c_ins c !! w_id w = Some (w, st);
  ci_ids : forall i w st, c_ins c !! i = Some (w, st) -> w_id w = i;
  ci_count : c_count c = countedn (c_ins c);
  ci_pkg : pkg_inv c;
  ci_res : forall o q, (o, q) ∈ c_results c -> good c o q }.

Lemma ci_pushed c w : cinv c -> w ∈ allw c -> exists st, c_ins c !! w_id w = Some (w, st) /\ pushed st = true.
Proof.
  intros H Hw. destruct (ci_known c H w Hw) as [st E]. exists st. split; [exact E|].
  pose proof (ci_cnt c H (w_id w)) as X. pose proof (cnt_in (w_id w) _ w Hw eq_refl). unfold pushedn in X. rewrite E in X.
  destruct (pushed st); [reflexivity|lia].
Qed.
Lemma ci_once c i : cinv c -> cnt i (allw c) <= 1.
Proof.
  intros H. rewrite (ci_cnt c H). unfold pushedn. destruct (c_ins c !! i) as [[w st]|]; [|lia]. destruct (pushed st); lia.
Qed.

Lemma queue_swap c z i : cnt i (c_q0 c) + cnt i (c_q1 c) = cnt i (c_queue c z) + cnt i (c_queue c (negb z)).
Proof. destruct z; unfold c_queue, negb; lia. Qed.
Lemma allw_cnt c i z : cnt i (allw c) =
  cnt i (c_queue c z) + cnt i (c_queue c (negb z)) + cnt i (held (c_pkg c)) + cnt i (c_gone c) + cnt i (c_over c).
Proof. unfold allw. rewrite !cnt_app. pose proof (queue_swap c z i). lia. Qed.
Lemma allw_in c w z : w ∈ allw c <->
  w ∈ c_queue c z \/ w ∈ c_queue c (negb z) \/ w ∈ held (c_pkg c) \/ w ∈ c_gone c \/ w ∈ c_over c.
Proof. unfold allw. rewrite !elem_of_app. destruct z; cbn; tauto. Qed.

Lemma queue_set_same c z q : c_queue (c_set_queue c z q) z = q.
Proof. destruct z; reflexivity. Qed.
Lemma queue_set_other c z q : c_queue (c_set_queue c z q) (negb z) = c_queue c (negb z).
Proof. destruct z; reflexivity. Qed.

(** Facts [good] depends on only grow. *)
Definition grows (c c' : cst) : Prop :=
  forall i w st, c_ins c !! i = Some (w, st) -> pushed st = true -> exists st', c_ins c' !! i = Some (w, st') /\ pushed st' = true.
Lemma good_grows c c' o q : grows c c' -> good c o q -> good c' o q.
Proof.
  intros G (k & E & N & H). exists k. split; [exact E|]. split; [exact N|]. intros w Hw.
  destruct (H w Hw) as (st & E1 & E2). exact (G _ _ _ E1 E2).
Qed.

Lemma pick_picked limit w s : picked s -> picked (c_pick limit w s) /\ pk_cand (c_pick limit w s) = pk_cand s ++ [w] /\
  pk_timeout (c_pick limit w s) = pk_timeout s.
Proof.
  intros (k1 & k2 & E1 & E2 & E3 & E4). unfold c_pick. cbn [pk_stage pk_order pk_propose pk_timeout pk_cycles pk_cand].
  assert (Hskip : picked (MkPk (pk_order s) (pk_propose s) (pk_timeout s) (pk_cycles s) (pk_stage s) (pk_cand s ++ [w]))).
  { exists k1, k2. cbn. repeat split; auto. apply sublist_inserts_r. exact E3. }
  destruct (match pk_stage s with OrderTxs => false | ProposeTxs => w_proposed w | Finished => true end) eqn:Ek; [auto|].
  destruct (limit <? wrap64 (pk_cycles s + tx_cycle (w_tx w)))%N.
  - destruct (pk_stage s) eqn:Es; try discriminate Ek.
    + split; [|auto]. exists k1, (k2 ++ [w]). cbn. rewrite E2, map_app. repeat split; auto.
      * rewrite app_assoc. apply sublist_app; [exact E3|reflexivity].
      * discriminate.
    + split; [|auto]. exists k1, k2. cbn. repeat split; auto; [apply sublist_inserts_r; exact E3|discriminate].
  - destruct (pk_stage s) eqn:Es; try discriminate Ek.
    + split; [|auto]. rewrite (E4 eq_refl) in *. exists (k1 ++ [w]), []. cbn. rewrite E1, map_app. repeat split; auto.
      rewrite app_nil_r in *. apply sublist_app; [exact E3|reflexivity].
    + split; [|auto]. exists k1, (k2 ++ [w]). cbn. rewrite E2, map_app. repeat split; auto.
      * rewrite app_assoc. apply sublist_app; [exact E3|reflexivity].
      * discriminate.
Qed.

Lemma picked_good c s z : cinv c -> picked s -> pk_cand s `sublist_of` c_queue c z -> good c (pk_order s) (pk_propose s).
Proof.
  intros Hc (k1 & k2 & E1 & E2 & E3 & E4) Hs. exists (k1 ++ k2). rewrite E1, E2, map_app.
  assert (Hsub : (k1 ++ k2) `sublist_of` c_queue c z) by (etransitivity; eassumption).
  split; [reflexivity|]. split.
  - eapply sublist_nodup; [apply (fmap_sublist w_id); exact Hsub|]. apply cnt_nodup. intros i.
    pose proof (ci_once c i Hc) as X. rewrite (allw_cnt c i z) in X. lia.
  - intros w Hw. apply (ci_pushed c w Hc). apply (allw_in c w z). left. eapply sublist_in; eassumption.
Qed.

Lemma cinv_new cap : cinv (c_new cap).
Proof.
  constructor; cbn; try reflexivity.
  - intros w X. inversion X.
  - intros i w st X. discriminate.
  - split; [|auto]. intros i w z X. discriminate.
  - intros o q X. inversion X.
Qed.

(** ** Inserters *)
Lemma ins_set_inv c c' i w st st' :
  cinv c -> c_ins c !! i = Some (w, st) ->
  c_ins c' = <[i := (w, st')]> (c_ins c) ->
  (* only a push changes the queues *)
  (forall j, cnt j (allw c') = cnt j (allw c) + (if decide (j = i) then b2n (pushed st') - b2n (pushed st) else 0)) ->
  (pushed st = true -> pushed st' = true) ->
  (forall x, x ∈ allw c' -> x ∈ allw c \/ x = w) ->
  c_count c' + b2n (counted st) = c_count c + b2n (counted st') ->
  c_pkg c' = c_pkg c -> c_results c' = c_results c -> c_zero c' = c_zero c -> c_over c' = c_over c ->
  (forall z, st' = IRole z -> z = c_zero c) ->
  (forall z, c_queue c' z = c_queue c z \/ st = IRole z /\ exists x, c_queue c' z = c_queue c z ++ x) ->
  cinv c'.
Proof.
  intros Hc Hi Hins Hcnt Hmono Hin Hcount Hpkg Hres Hzero Hover Hrole Hq.
  assert (Hlt : i < length (c_ins c)) by (eapply lookup_lt_Some; exact Hi).
  assert (Hw : w_id w = i) by exact (ci_ids c Hc _ _ _ Hi).
  assert (G : grows c c').
  { intros j x s E P. rewrite Hins. destruct (decide (j = i)) as [->|ne].
    - rewrite list_lookup_insert by exact Hlt. rewrite Hi in E. injection E as <- <-. eauto.
    - rewrite list_lookup_insert_ne by congruence. eauto. }
  assert (Hr : roles_ok c -> roles_ok c').
  { intros R j x z E. rewrite Hins in E. rewrite Hzero. destruct (decide (j = i)) as [->|ne].
    - rewrite list_lookup_insert in E by exact Hlt. injection E as <- E. auto.
    - rewrite list_lookup_insert_ne in E by congruence. exact (R _ _ _ E). }
  constructor.
  - intros j. rewrite Hcnt, Hins, (ci_cnt c Hc), (pushedn_set _ _ _ _ _ _ _ Hi).
    destruct (decide (j = i)) as [->|ne]; [|lia]. unfold pushedn. rewrite Hi. unfold b2n.
    destruct (pushed st) eqn:E1; [rewrite (Hmono eq_refl); lia|]. destruct (pushed st'); lia.
  - intros x Hx. rewrite Hins. apply Hin in Hx as [Hx| ->].
    + destruct (ci_known c Hc x Hx) as [s E]. destruct (decide (w_id x = i)) as [Ei|ne].
      * rewrite Ei in *. rewrite list_lookup_insert by exact Hlt. rewrite Hi in E. injection E as <- <-. eauto.
      * rewrite list_lookup_insert_ne by congruence. eauto.
    + rewrite Hw, list_lookup_insert by exact Hlt. eauto.
  - intros j x s E. rewrite Hins in E. destruct (decide (j = i)) as [->|ne].
    + rewrite list_lookup_insert in E by exact Hlt. injection E as <- _. exact Hw.
    + rewrite list_lookup_insert_ne in E by congruence. exact (ci_ids c Hc _ _ _ E).
  - rewrite Hins. pose proof (countedn_set _ _ _ _ w st' Hi). rewrite (ci_count c Hc) in Hcount. lia.
  - pose proof (ci_pkg c Hc) as P. unfold pkg_inv in *. rewrite Hpkg.
    assert (Hother : roles_ok c -> c_queue c' (negb (c_zero c')) = c_queue c (negb (c_zero c))).
    { intros R. rewrite Hzero. destruct (Hq (negb (c_zero c))) as [X|[X _]]; [exact X|].
      rewrite X in Hi. apply R in Hi. destruct (c_zero c); discriminate Hi. }
    destruct (c_pkg c) as [|a z s|a z s x|a z s x|z s|s|s|s x|s rest].
    + destruct P as [P1 P2]. rewrite (Hother P1), Hover. auto.
    + destruct P as (P1 & P2 & P3 & P4). rewrite P2 in *.
      assert (Hother' : c_queue c' (negb (c_zero c)) = c_queue c (negb (c_zero c))) by (rewrite <- Hzero at 1; auto).
      rewrite Hother'. split; [auto|]. split; [congruence|auto].
    + destruct P as (P1 & P2 & P3 & P4). rewrite P2 in *.
      assert (Hother' : c_queue c' (negb (c_zero c)) = c_queue c (negb (c_zero c))) by (rewrite <- Hzero at 1; auto).
      rewrite Hother'. split; [auto|]. split; [congruence|auto].
    + destruct P as (P1 & P2 & P3 & P4). rewrite P2 in *.
      assert (Hother' : c_queue c' (negb (c_zero c)) = c_queue c (negb (c_zero c))) by (rewrite <- Hzero at 1; auto).
      rewrite Hother'. split; [auto|]. split; [congruence|auto].
    + destruct P as (P1 & P2 & P3). split; [auto|]. split; [congruence|]. exact (good_grows c c' _ _ G P3).
    + exact (good_grows c c' _ _ G P).
    + destruct P as (P1 & P3). split; [auto|]. exact (good_grows c c' _ _ G P3).
    + destruct P as (P1 & P3). split; [auto|]. exact (good_grows c c' _ _ G P3).
    + destruct P as (P1 & P3 & P4). split; [auto|]. split; [exact (good_grows c c' _ _ G P3)|]. rewrite (Hother P1). exact P4.
  - intros o q Hoq. rewrite Hres in Hoq. exact (good_grows c c' _ _ G (ci_res c Hc o q Hoq)).
Qed.

Lemma ins_step_inv c i : cinv c -> cinv (ins_step c i).
Proof.
  intros Hc. unfold ins_step. destruct (c_ins c !! i) as [[w st]|] eqn:Hi; [|exact Hc].
  assert (Hw : w_id w = i) by exact (ci_ids c Hc _ _ _ Hi).
  assert (Hsame : forall j (b : bool), cnt j (allw c) = cnt j (allw c) + (if decide (j = i) then b2n b - b2n b else 0)).
  { intros j b. destruct (decide _); lia. }
  destruct st as [| | |z|ok|ok|r].
  - destruct (c_map c !! w_hash w).
    + eapply (ins_set_inv c); [exact Hc|exact Hi|reflexivity|intros j; apply (Hsame j false)|discriminate|auto|reflexivity..| |]; auto; discriminate.
    + eapply (ins_set_inv c); [exact Hc|exact Hi|reflexivity|intros j; apply (Hsame j false)|discriminate|auto|reflexivity..| |]; auto; discriminate.
  - eapply (ins_set_inv c); [exact Hc|exact Hi|reflexivity|intros j; apply (Hsame j false)|discriminate|auto| |reflexivity..| |]; cbn; auto; try lia; discriminate.
  - eapply (ins_set_inv c); [exact Hc|exact Hi|reflexivity|intros j; apply (Hsame j false)|discriminate|auto|reflexivity..| |]; auto.
    intros z [= <-]. reflexivity.
  - destruct (c_full c z).
    + eapply (ins_set_inv c); [exact Hc|exact Hi|reflexivity|intros j; apply (Hsame j false)|discriminate|auto|reflexivity..| |]; auto; discriminate.
    + eapply (ins_set_inv c); [exact Hc|exact Hi|reflexivity| |discriminate| |reflexivity..| |]; auto; try discriminate.
      * intros j. rewrite (allw_cnt c j z). rewrite (allw_cnt _ j z).
        change (c_queue (c_set_ins ?a ?b) ?y) with (c_queue a y). rewrite queue_set_same, queue_set_other, cnt_app.
        cbn [c_set_ins c_set_queue c_pkg c_gone c_over]. rewrite cnt_cons, cnt_nil, Hw. cbn [pushed b2n].
        destruct (decide (i = j)), (decide (j = i)); try congruence; lia.
      * intros x. rewrite !(allw_in _ x z). change (c_queue (c_set_ins ?a ?b) ?y) with (c_queue a y).
        rewrite queue_set_same, queue_set_other, elem_of_app, elem_of_list_singleton. cbn. tauto.
      * intros y. change (c_queue (c_set_ins ?a ?b) ?y) with (c_queue a y). destruct (decide (y = z)) as [->|ne].
        -- right. split; [reflexivity|]. rewrite queue_set_same. eauto.
        -- left. assert (y = negb z) as -> by (destruct y, z; cbn; congruence). apply queue_set_other.
  - eapply (ins_set_inv c); [exact Hc|exact Hi|reflexivity|intros j; destruct ok; apply (Hsame j)|destruct ok; auto|auto| |reflexivity..| |]; cbn; auto; try discriminate.
    assert (1 <= c_count c); [|lia]. rewrite (ci_count c Hc). pose proof (countedn_set _ _ _ _ w (IUncounted ok) Hi) as X.
    cbn [counted b2n] in X. lia.
  - destruct ok.
    + eapply (ins_set_inv c); [exact Hc|exact Hi|reflexivity|intros j; apply (Hsame j true)|auto|auto|reflexivity..| |]; auto; discriminate.
    + eapply (ins_set_inv c); [exact Hc|exact Hi|reflexivity|intros j; apply (Hsame j false)|discriminate|auto|reflexivity..| |]; auto; discriminate.
  - exact Hc.
Qed.

(** ** Spawning and flushing *)
Lemma pushedn_app l w i : pushedn (l ++ [(w, IStart)]) i = pushedn l i.
Proof.
  unfold pushedn. destruct (decide (i < length l)) as [lt|ge].
  - rewrite lookup_app_l by exact lt. reflexivity.
  - rewrite lookup_app_r by lia. rewrite (lookup_ge_None_2 l) by lia. destruct (i - length l); reflexivity.
Qed.
Lemma countedn_app l w : countedn (l ++ [(w, IStart)]) = countedn l.
Proof.
  unfold countedn. rewrite filter_app, app_length, filter_cons_False by (cbn; discriminate). cbn. lia.
Qed.
Lemma lookup_snoc {A} (l : list A) x i y : (l ++ [x]) !! i = Some y -> l !! i = Some y \/ i = length l /\ y = x.
Proof.
  intros H. apply lookup_app_Some in H as [H|[H1 H2]]; [auto|]. right.
  apply list_lookup_singleton_Some in H2 as [H2 H3]. split; [lia|auto].
Qed.

Lemma spawn_inv c t b : cinv c -> cinv (c_step c (LSpawn t b)).
Proof.
  intros Hc. cbn [c_step]. set (n := (MkW (length (c_ins c)) t b, IStart)).
  assert (G : grows c (c_set_ins c (c_ins c ++ [n]))).
  { intros i w st E P. exists st. split; [|exact P]. cbn. apply lookup_app_l_Some. exact E. }
  assert (Hr : roles_ok c -> roles_ok (c_set_ins c (c_ins c ++ [n]))).
  { intros R i w z E. cbn in E. apply lookup_snoc in E as [E|[_ E]]; [exact (R _ _ _ E)|discriminate]. }
  constructor.
  - intros i. cbn. unfold n. rewrite pushedn_app. exact (ci_cnt c Hc i).
  - intros w Hw. destruct (ci_known c Hc w Hw) as [st E]. exists st. cbn. apply lookup_app_l_Some. exact E.
  - intros i w st E. cbn in E. apply lookup_snoc in E as [E|[-> E]]; [exact (ci_ids c Hc _ _ _ E)|].
    injection E as -> _. reflexivity.
  - cbn [c_count c_set_ins c_ins]. unfold n. rewrite countedn_app. exact (ci_count c Hc).
  - pose proof (ci_pkg c Hc) as P. unfold pkg_inv in *. cbn [c_set_ins c_pkg c_over c_zero].
    change (c_queue (c_set_ins ?a ?b) ?y) with (c_queue a y).
    destruct (c_pkg c) as [|a z s|a z s x|a z s x|z s|s|s|s x|s rest]; try (destruct P as [P1 P2]; auto; fail).
    + destruct P as (P1 & P2 & P3). split; [auto|]. split; [auto|]. exact (good_grows _ _ _ _ G P3).
    + exact (good_grows _ _ _ _ G P).
    + destruct P as (P1 & P3). split; [auto|]. exact (good_grows _ _ _ _ G P3).
    + destruct P as (P1 & P3). split; [auto|]. exact (good_grows _ _ _ _ G P3).
    + destruct P as (P1 & P3 & P4). split; [auto|]. split; [exact (good_grows _ _ _ _ G P3)|exact P4].
  - intros o q Hoq. exact (good_grows _ _ _ _ G (ci_res c Hc o q Hoq)).
Qed.

(** Steps that change nothing the invariant speaks of *)
Lemma cinv_map c m : cinv c -> cinv (c_set_map c m).
Proof. intros [H1 H2 H3 H4 H5 H6]. constructor; assumption. Qed.
Lemma cinv_removed c r : cinv c -> cinv (c_set_removed c r).
Proof. intros [H1 H2 H3 H4 H5 H6]. constructor; assumption. Qed.
Lemma cinv_fl c l : cinv c -> cinv (c_set_fl c l).
Proof. intros [H1 H2 H3 H4 H5 H6]. constructor; assumption. Qed.

Lemma fl_step_inv c i k : cinv c -> cinv (fl_step c i k).
Proof.
  intros Hc. unfold fl_step. destruct (c_fl c !! i) as [[[|h todo] hs|w todo hs|rest]|]; [..|exact Hc].
  - apply cinv_fl, Hc.
  - destruct (c_map c !! h); apply cinv_fl, Hc.
  - apply cinv_fl, cinv_removed, Hc.
  - destruct (rest !! k); [|exact Hc]. apply cinv_fl, cinv_map, Hc.
Qed.

(** ** Packaging *)
Lemma pkg_set_inv c c' :
  cinv c -> c_ins c' = c_ins c -> (forall i, cnt i (allw c') = cnt i (allw c)) ->
  (forall w, w ∈ allw c' -> w ∈ allw c) -> c_count c' = c_count c ->
  (forall o q, (o, q) ∈ c_results c' -> good c o q) ->
  pkg_inv c' -> cinv c'.
Proof.
  intros Hc Hi Hcnt Hin Hcount Hres Hp.
  assert (G : grows c c') by (intros i w st E P; rewrite Hi; eauto).
  constructor; auto.
  - intros i. rewrite Hcnt, Hi. exact (ci_cnt c Hc i).
  - intros w Hw. rewrite Hi. exact (ci_known c Hc w (Hin w Hw)).
  - rewrite Hi. exact (ci_ids c Hc).
  - rewrite Hcount, Hi. exact (ci_count c Hc).
  - intros o q Hoq. exact (good_grows _ _ _ _ G (Hres o q Hoq)).
Qed.

Lemma package_inv c a b d : cinv c -> cinv (c_step c (LPackage a b d)).
Proof.
  intros Hc. cbn [c_step]. pose proof (ci_pkg c Hc) as P. unfold pkg_inv in P. destruct (c_pkg c) eqn:Ep; try exact Hc.
  apply (pkg_set_inv c); try reflexivity; auto.
  - intros i. unfold allw. cbn. rewrite Ep. reflexivity.
  - intros w. unfold allw. cbn. rewrite Ep. auto.
  - exact (ci_res c Hc).
  - destruct P as [P1 P2]. unfold pkg_inv. cbn. split; [exact P1|]. split; [reflexivity|]. split.
    + exists [], []. cbn. repeat split; auto.
    + apply sublist_nil_l.
Qed.

Ltac same_parts z Ep Eq :=
  rewrite ?(allw_cnt _ _ z), ?(allw_in _ _ z);
  repeat change (c_queue (c_set_pkg ?a ?b) ?y) with (c_queue a y);
  repeat change (c_queue (c_add_gone ?a ?b) ?y) with (c_queue a y);
  repeat change (c_queue (c_add_over ?a ?b) ?y) with (c_queue a y);
  cbn [c_set_pkg c_set_queue c_add_gone c_add_over c_pkg c_gone c_over held];
  rewrite ?queue_set_same, ?queue_set_other, ?negb_involutive, ?Eq, ?Ep, ?cnt_app, ?cnt_cons, ?cnt_nil,
    ?elem_of_app, ?elem_of_cons, ?elem_of_nil; cbn [held]; rewrite ?cnt_cons, ?cnt_nil, ?elem_of_cons, ?elem_of_nil.

Lemma negb_set c z q : c_queue (c_set_queue c (negb z) q) z = c_queue c z.
Proof. destruct z; reflexivity. Qed.

Lemma pkg_step_inv c k : cinv c -> cinv (pkg_step c k).
Proof.
  intros Hc. pose proof (ci_pkg c Hc) as P. unfold pkg_inv in P. unfold pkg_step.
  destruct (c_pkg c) as [|a z s|a z s w|a z s w|z s|s|s|s w|s rest] eqn:Ep.
  - exact Hc.
  - destruct P as (P1 & P2 & P3 & P4). destruct (c_queue c z) as [|w q] eqn:Eq.
    + apply (pkg_set_inv c); try reflexivity; auto.
      * intros i. same_parts z Ep Eq. lia.
      * intros x. same_parts z Ep Eq. tauto.
      * exact (ci_res c Hc).
      * unfold pkg_inv. cbn. split; [exact P1|]. split; [exact P2|]. exact (picked_good c s (negb z) Hc P3 P4).
    + apply (pkg_set_inv c); try reflexivity; auto.
      * intros i. same_parts z Ep Eq. lia.
      * intros x. same_parts z Ep Eq. tauto.
      * exact (ci_res c Hc).
      * unfold pkg_inv. cbn [c_set_pkg c_pkg]. change (c_queue (c_set_pkg ?a ?b) ?y) with (c_queue a y).
        rewrite queue_set_other. auto.
  - destruct P as (P1 & P2 & P3 & P4). destruct (decide (w_id w ∈ c_removed c)); [|destruct (is_timeout _ _ _)].
    + apply (pkg_set_inv c); try reflexivity; auto.
      * intros i. same_parts z Ep Ep. lia.
      * intros x. same_parts z Ep Ep. tauto.
      * exact (ci_res c Hc).
      * unfold pkg_inv. cbn. auto.
    + apply (pkg_set_inv c); try reflexivity; auto.
      * intros i. same_parts z Ep Ep. lia.
      * intros x. same_parts z Ep Ep. tauto.
      * exact (ci_res c Hc).
      * unfold pkg_inv. cbn. auto.
    + apply (pkg_set_inv c); try reflexivity; auto.
      * intros i. same_parts z Ep Ep. lia.
      * intros x. same_parts z Ep Ep. tauto.
      * exact (ci_res c Hc).
      * unfold pkg_inv. cbn. auto.
  - destruct P as (P1 & P2 & P3 & P4). destruct (c_full c (negb z)).
    + apply (pkg_set_inv c); try reflexivity; auto.
      * intros i. same_parts z Ep Ep. lia.
      * intros x. same_parts z Ep Ep. tauto.
      * exact (ci_res c Hc).
      * unfold pkg_inv. cbn. split; [exact P1|]. intros X. destruct (c_over c); discriminate X.
    + apply (pkg_set_inv c); try reflexivity; auto.
      * intros i. same_parts (negb z) Ep Ep. lia.
      * intros x. same_parts (negb z) Ep Ep. tauto.
      * exact (ci_res c Hc).
      * destruct (pick_picked (pa_limit a) w s P3) as (Q1 & Q2 & Q3).
        unfold pkg_inv. cbn [c_set_pkg c_pkg]. change (c_queue (c_set_pkg ?a ?b) ?y) with (c_queue a y).
        rewrite queue_set_same, Q2. split; [exact P1|]. split; [exact P2|]. split; [exact Q1|].
        apply sublist_app; [exact P4|reflexivity].
  - destruct P as (P1 & P2 & P3). apply (pkg_set_inv c); try reflexivity; auto.
    + intros i. unfold allw. cbn. rewrite Ep. reflexivity.
    + intros w. unfold allw. cbn. rewrite Ep. auto.
    + exact (ci_res c Hc).
  - destruct (decide (c_count c = 0)) as [E0|]; [|exact Hc]. apply (pkg_set_inv c); try reflexivity; auto.
    + intros i. unfold allw. cbn. rewrite Ep. reflexivity.
    + intros w. unfold allw. cbn. rewrite Ep. auto.
    + exact (ci_res c Hc).
    + unfold pkg_inv. cbn. split; [|exact P]. intros i w z E. cbn in E. rewrite (ci_count c Hc) in E0.
      pose proof (countedn_zero _ _ _ _ E0 E). discriminate.
  - destruct P as (P1 & P3). destruct (c_queue c (negb (c_zero c))) as [|w q] eqn:Eq.
    + apply (pkg_set_inv c); try reflexivity; auto.
      * intros i. unfold allw. cbn. rewrite Ep. reflexivity.
      * intros x. unfold allw. cbn. rewrite Ep. auto.
      * exact (ci_res c Hc).
      * unfold pkg_inv. cbn. auto.
    + apply (pkg_set_inv c); try reflexivity; auto.
      * intros i. same_parts (negb (c_zero c)) Ep Eq. lia.
      * intros x. same_parts (negb (c_zero c)) Ep Eq. tauto.
      * exact (ci_res c Hc).
      * unfold pkg_inv. cbn. auto.
  - destruct P as (P1 & P3). destruct (c_full c (c_zero c)).
    + apply (pkg_set_inv c); try reflexivity; auto.
      * intros i. same_parts (c_zero c) Ep Ep. lia.
      * intros x. same_parts (c_zero c) Ep Ep. tauto.
      * exact (ci_res c Hc).
      * unfold pkg_inv. cbn. auto.
    + apply (pkg_set_inv c); try reflexivity; auto.
      * intros i. same_parts (c_zero c) Ep Ep. lia.
      * intros x. same_parts (c_zero c) Ep Ep. tauto.
      * exact (ci_res c Hc).
      * unfold pkg_inv. cbn. auto.
  - destruct P as (P1 & P3 & P4). destruct rest as [|h0 rest0].
    + apply (pkg_set_inv c); try reflexivity; auto.
      * intros i. unfold allw. cbn. rewrite Ep. reflexivity.
      * intros x. unfold allw. cbn. rewrite Ep. auto.
      * intros o q H. cbn in H. rewrite elem_of_app, elem_of_list_singleton in H. destruct H as [H|H].
        -- exact (ci_res c Hc o q H).
        -- injection H as -> ->. exact P3.
      * unfold pkg_inv. cbn. auto.
    + destruct ((h0 :: rest0) !! k); [|exact Hc]. apply (pkg_set_inv c); try reflexivity; auto.
      * intros i. unfold allw. cbn. rewrite Ep. reflexivity.
      * intros x. unfold allw. cbn. rewrite Ep. auto.
      * exact (ci_res c Hc).
      * unfold pkg_inv. cbn. auto.
Qed.

Lemma c_step_inv c l : cinv c -> cinv (c_step c l).
Proof.
  intros Hc. destruct l; cbn [c_step].
  - exact (spawn_inv c t proposed Hc).
  - exact (ins_step_inv c i Hc).
  - exact (package_inv c limit cur tmo Hc).
  - exact (pkg_step_inv c k Hc).
  - apply cinv_fl, Hc.
  - exact (fl_step_inv c i k Hc).
Qed.
Lemma c_run_inv c sched : cinv c -> cinv (c_run c sched).
Proof. revert c. induction sched as [|l s IH]; intros c Hc; [exact Hc|]. cbn. apply IH, c_step_inv, Hc. Qed.
