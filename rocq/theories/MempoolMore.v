(** * Facts about reachable pools, in terms of what the API shows. *)
From Verif Require Import Base BaseFacts Hex Types Rlp FixedCodec Mempool MempoolSpec MempoolFacts MempoolProps.
Local Open Scope N_scope.

Definition zero_hash : hash := Sized (n := 32) (repeat x00 32) eq_refl.

(** ** What a caller can see of a pool *)
Definition mp_contains (p : mempool) (h : hash) : bool := tc_contain (mp_tc p) h.
Definition mp_pooled (p : mempool) (h : hash) : option signed_tx := tc_get (mp_tc p) h.
Definition mp_len (p : mempool) : nat := tc_len (mp_tc p).
(** Slots of the queue in use (flushed transactions keep theirs). *)
Definition mp_slots (p : mempool) : nat := length (tc_incumbent (mp_tc p)).
(** Whether the pooled transaction came from another node's proposal. *)
Definition mp_proposed (p : mempool) (h : hash) : option bool := w_proposed <$> tc_map (mp_tc p) !! h.

Definition pool_after digest verify (n : nat) (gap gap' : u64) (ops : list mp_op) : mempool :=
  (mp_run digest verify gap (mp_new n gap') ops).2.

Lemma pool_inv digest verify n gap gap' ops : mp_inv n gap' (pool_after digest verify n gap gap' ops).
Proof. apply inv_run, inv_new. Qed.

Lemma run_app digest verify gap p a b :
  mp_run digest verify gap p (a ++ b) =
  let (r1, p1) := mp_run digest verify gap p a in let (r2, p2) := mp_run digest verify gap p1 b in (r1 ++ r2, p2).
Proof.
  revert p. induction a as [|o a IH]; intros p; cbn [mp_run app].
  - destruct (mp_run _ _ _ p b); reflexivity.
  - destruct (mp_step _ _ _ p o) as [r p1]. rewrite IH. destruct (mp_run _ _ _ p1 a) as [r1 p2].
    destruct (mp_run _ _ _ p2 b). reflexivity.
Qed.

Section I.
  Context (n : nat) (gap' : u64) (p : mempool) (Hp : mp_inv n gap' p).
  Let Hi : inv (mp_tc p) := proj2 (proj2 (proj2 Hp)).

  Lemma pooled_entry h t : mp_pooled p h = Some t <-> exists b, (t, b) ∈ entries p /\ st_tx_hash t = h.
  Proof.
    unfold mp_pooled, tc_get, entries. split.
    - intros E. apply fmap_Some in E as (w & E & ->). apply (inv_map _ Hi) in E as [Hw Hh].
      exists (w_proposed w). split; [|exact Hh]. apply elem_of_list_fmap. exists w. auto.
    - intros (b & Hin & Hh). apply elem_of_list_fmap in Hin as (w & E & Hw). injection E as -> ->.
      apply fmap_Some. exists w. split; [|reflexivity]. apply (inv_map _ Hi). auto.
  Qed.
  Lemma contains_pooled h : mp_contains p h = true <-> exists t, mp_pooled p h = Some t.
  Proof.
    unfold mp_contains, tc_contain, mp_pooled, tc_get. rewrite bool_decide_eq_true.
    destruct (tc_map _ !! h); cbn; split; intros [x Hx]; eauto; discriminate.
  Qed.
  Lemma contains_entry h : mp_contains p h = true <-> h ∈ map e_hash (entries p).
  Proof.
    rewrite contains_pooled. setoid_rewrite pooled_entry. rewrite elem_of_list_fmap. split.
    - intros (t & b & Hin & Hh). exists (t, b). auto.
    - intros ([t b] & Hh & Hin). exists t, b. auto.
  Qed.
  Lemma proposed_entry h b : mp_proposed p h = Some b <-> exists t, (t, b) ∈ entries p /\ st_tx_hash t = h.
  Proof.
    unfold mp_proposed, entries. split.
    - intros E. apply fmap_Some in E as (w & E & ->). apply (inv_map _ Hi) in E as [Hw Hh].
      exists (w_tx w). split; [|exact Hh]. apply elem_of_list_fmap. exists w. auto.
    - intros (t & Hin & Hh). apply elem_of_list_fmap in Hin as (w & E & Hw). injection E as -> ->.
      apply fmap_Some. exists w. split; [|reflexivity]. apply (inv_map _ Hi). auto.
  Qed.
  Lemma len_entries : mp_len p = length (entries p).
  Proof. unfold mp_len, entries. rewrite (len_live _ Hi), map_length. reflexivity. Qed.
  Lemma slots_entries : mp_slots p = (length (entries p) + dead p)%nat.
  Proof. unfold mp_slots, entries, dead. rewrite map_length. pose proof (live_le (mp_tc p)). lia. Qed.
  Lemma slots_cap : (mp_slots p <= 4 * n)%nat.
  Proof. pose proof (inv_cap _ Hi) as X. assert (E : tc_cap (mp_tc p) = (4 * n)%nat) by apply Hp.
    rewrite E in X. exact X. Qed.
  Lemma entries_nodup : NoDup (map e_hash (entries p)).
  Proof. unfold entries. rewrite ent_hashes. apply live_hashes. exact Hi. Qed.
  Lemma slots_len : (mp_len p <= mp_slots p)%nat.
  Proof. rewrite len_entries, slots_entries. lia. Qed.
End I.

Lemma pooled_ext n g p p' : mp_inv n g p -> mp_inv n g p' -> entries p = entries p' ->
  (forall h, mp_pooled p h = mp_pooled p' h) /\ (forall h, mp_contains p h = mp_contains p' h) /\ mp_len p = mp_len p'.
Proof.
  intros Hp Hp' E. assert (X : forall h, mp_pooled p h = mp_pooled p' h).
  { intros h. destruct (mp_pooled p h) as [t|] eqn:E1.
    - symmetry. apply (pooled_entry n g p' Hp'). rewrite <- E. apply (pooled_entry n g p Hp). exact E1.
    - destruct (mp_pooled p' h) as [t|] eqn:E2; [|reflexivity].
      apply (pooled_entry n g p' Hp') in E2. rewrite <- E in E2. apply (pooled_entry n g p Hp) in E2. congruence. }
  split; [exact X|]. split.
  - intros h. apply eq_true_iff_eq. rewrite (contains_entry n g p Hp), (contains_entry n g p' Hp'), E. reflexivity.
  - rewrite (len_entries n g p Hp), (len_entries n g p' Hp'), E. reflexivity.
Qed.

(** ** Insertion *)
Section Ins.
  Context (digest : bytes -> hash) (verify : bytes -> bytes -> bytes -> bool).
  Context (n : nat) (gap gap' : u64).

  (** The three checks made on the transaction itself *)
  Definition tx_ok (e : env) (t : signed_tx) : Prop :=
    (let? _ := check_signature verify t in
     let? _ := check_transaction digest gap e t in
     check_storage_exist e (st_tx_hash t)) = Ok tt.

  Definition admissible (p : mempool) (e : env) (t : signed_tx) : Prop :=
    (mp_len p < n)%nat /\ mp_contains p (st_tx_hash t) = false /\ tx_ok e t /\ (mp_slots p < 4 * n)%nat.

  Lemma insert_outcome p net t e b : mp_inv n gap' p ->
    let '(r, p') := mp_insert digest verify gap p net t e b in
    mp_inv n gap' p' /\ mp_cb p' = mp_cb p /\
    ((admissible p e t /\ r = (if net then Ok tt else b) /\ entries p' = entries p ++ [(t, false)] /\
      mp_slots p' = S (mp_slots p) /\ mp_out p' = mp_out p ++ (if net then [] else [t])) \/
     (~ admissible p e t /\ (forall x, r <> Ok x) /\ entries p' = entries p /\ mp_slots p' = mp_slots p /\
      mp_out p' = mp_out p)).
  Proof.
    intros Hp. pose proof (mirror_sim n gap' p Hp) as Hs.
    pose proof (sim_insert digest verify n gap gap' p (mirror p) net t e b Hs) as [Hr Hs'].
    cbn [mp_step] in Hr, Hs'.
    destruct (mp_insert digest verify gap p net t e b) as [r p'] eqn:Em. cbn [fst snd] in Hr, Hs'.
    cbn [sp_step mirror sp_txs] in Hr, Hs'.
    assert (Hlen := len_entries n gap' p Hp). assert (Hslot := slots_entries p).
    assert (Hc := contains_entry n gap' p Hp (st_tx_hash t)).
    unfold admissible, tx_ok.
    assert (Hfail : forall rr, RsUnit r = RsUnit rr -> (forall x, rr <> Ok x) ->
       sim n gap' p' (mirror p) -> 
       mp_inv n gap' p' /\ mp_cb p' = mp_cb p /\ (forall x, r <> Ok x) /\ entries p' = entries p /\
       mp_slots p' = mp_slots p /\ mp_out p' = mp_out p).
    { intros rr Err Hne (S1 & S2 & S3 & S4 & S5). injection Err as ->. cbn in S2, S3, S4, S5.
      split; [exact S1|]. split; [auto|]. split; [exact Hne|]. split; [auto|]. split; [|auto].
      rewrite (slots_entries p'), (slots_entries p). congruence. }
    rewrite <- Hlen in Hr, Hs'. destruct (n <=? mp_len p)%nat eqn:E1.
    { apply Nat.leb_le in E1. destruct (Hfail _ Hr ltac:(discriminate) Hs') as (F1 & F2 & F3).
      split; [exact F1|]. split; [exact F2|]. right. split; [lia|exact F3]. }
    apply Nat.leb_gt in E1.
    destruct (decide (sp_has (mirror p) (st_tx_hash t))) as [D|D].
    { destruct (Hfail _ Hr ltac:(discriminate) Hs') as (F1 & F2 & F3).
      split; [exact F1|]. split; [exact F2|]. right. split; [|exact F3].
      apply Hc in D. intros (_ & X & _). congruence. }
    assert (D' : mp_contains p (st_tx_hash t) = false).
    { destruct (mp_contains p (st_tx_hash t)); [exfalso; apply D, Hc; reflexivity|reflexivity]. }
    destruct (rbind _ _) as [[]|x|] eqn:Ec.
    2:{ destruct (Hfail _ Hr ltac:(discriminate) Hs') as (F1 & F2 & F3).
        split; [exact F1|]. split; [exact F2|]. right. split; [|exact F3]. intros (_ & _ & X & _). discriminate. }
    2:{ destruct (Hfail _ Hr ltac:(discriminate) Hs') as (F1 & F2 & F3).
        split; [exact F1|]. split; [exact F2|]. right. split; [|exact F3]. intros (_ & _ & X & _). discriminate. }
    unfold sp_add in Hr, Hs'. rewrite decide_False in Hr, Hs' by exact D.
    cbn [mirror sp_txs sp_dead sp_pulled sp_out] in Hr, Hs'. rewrite <- Hslot in Hr, Hs'.
    destruct (4 * n <=? mp_slots p)%nat eqn:E2.
    { apply Nat.leb_le in E2. destruct (Hfail _ Hr ltac:(discriminate) Hs') as (F1 & F2 & F3).
      split; [exact F1|]. split; [exact F2|]. right. split; [lia|exact F3]. }
    apply Nat.leb_gt in E2.
    assert (Hout : mp_inv n gap' p' /\ mp_cb p' = mp_cb p /\ r = (if net then Ok tt else b) /\
                   entries p' = entries p ++ [(t, false)] /\ mp_slots p' = S (mp_slots p) /\
                   mp_out p' = mp_out p ++ (if net then [] else [t])).
    { destruct net; cbn [fst snd] in Hr, Hs'; injection Hr as ->; destruct Hs' as (S1 & S2 & S3 & S4 & S5);
      cbn in S2, S3, S4, S5; rewrite ?app_nil_r;
      (split; [exact S1|]); (split; [auto|]); (split; [reflexivity|]); (split; [auto|]); (split; [|auto]);
      rewrite (slots_entries p'), (slots_entries p), <- S2, <- S3, app_length; cbn; lia. }
    destruct Hout as (O1 & O2 & O3). split; [exact O1|]. split; [exact O2|]. left. split; [|exact O3]. auto.
  Qed.
End Ins.

(** ** Packaging *)
Lemma sublist_in {A} (l k : list A) (x : A) : l `sublist_of` k -> x ∈ l -> x ∈ k.
Proof.
  induction 1 as [|y l k H IH|y l k H IH]; intros Hx; [exact Hx| |].
  - apply elem_of_cons in Hx as [->|Hx]; [left|right; auto].
  - right. auto.
Qed.
Lemma sublist_nodup {A} (l k : list A) : l `sublist_of` k -> NoDup k -> NoDup l.
Proof.
  induction 1 as [|x l k H IH|x l k H IH]; intros Hn; [constructor| |].
  - inversion Hn; subst. constructor; [|auto]. intros X. apply H2. eapply sublist_in; eassumption.
  - inversion Hn; subst. auto.
Qed.

Lemma pick_ext limit l : forall st cnt k, map ent l = map ent k -> pick limit st cnt l = pick limit st cnt k.
Proof.
  induction l as [|w l IH]; intros st cnt [|v k] E; try discriminate; [reflexivity|].
  cbn [map] in E. injection E as E1 E2 E. unfold pick. fold pick. unfold w_hash. rewrite <- E1, <- E2.
  destruct st; [|destruct (w_proposed w)|]; rewrite ?(IH _ _ k E); try reflexivity;
    destruct (limit <? _); rewrite ?(IH _ _ k E); reflexivity.
Qed.

Section Pack.
  Context (n : nat) (gap' : u64) (p : mempool) (Hp : mp_inv n gap' p).
  Context (limit : u64) (e : env) (ch : hash) (epoch : u64) (He : en_latest e = Ok (ch, epoch)).

  Definition unexpired (t : signed_tx) : Prop :=
    epoch < rt_timeout (st_raw t) /\ rt_timeout (st_raw t) <= (epoch + gap') mod two64.
  Lemma alive_unexpired x : alive epoch gap' x = true <-> unexpired x.1.
  Proof. unfold alive, unexpired. rewrite andb_true_iff, N.ltb_lt, N.leb_le. reflexivity. Qed.

  Lemma package_lists : exists o q p', mp_package p limit e = (Ok (o, q), p') /\ mp_inv n gap' p' /\
    (o ++ q) `sublist_of` map e_hash (entries p') /\
    entries p' = filter (fun x => alive epoch gap' x = true) (entries p) /\
    mp_cb p' = mp_cb p /\ mp_out p' = mp_out p /\ mp_slots p' = mp_len p'.
  Proof.
    pose proof (package_inv n gap' p limit e Hp) as (P1 & P2 & P3 & P4). rewrite He in P4.
    destruct (mp_package p limit e) as [r p']. cbn [fst snd] in *. destruct P4 as (-> & Q1 & Q2 & Q3).
    set (l := filter _ (live (mp_tc p))) in *. pose proof (pick_sub limit l) as S.
    destruct (pick limit OrderTxs (wrap64 0) l).1 as [o q]. exists o, q, p'. split; [reflexivity|].
    split; [exact P1|]. split; [rewrite Q2, ent_hashes; exact S|]. split; [exact Q1|]. split; [exact P2|].
    split; [exact P3|]. rewrite (slots_entries p'), Q3, (len_entries n gap' p' P1). lia.
  Qed.

  Lemma package_facts o q p' : mp_package p limit e = (Ok (o, q), p') ->
    NoDup (o ++ q) /\
    (forall h, h ∈ o ++ q -> exists t, mp_pooled p h = Some t /\ unexpired t /\ mp_pooled p' h = Some t) /\
    (forall h t, mp_pooled p' h = Some t <-> mp_pooled p h = Some t /\ unexpired t) /\
    (forall h, mp_lookup p' h = match mp_pooled p' h with Some t => Some t | None => mp_cb p !! h end).
  Proof.
    intros E. destruct package_lists as (o1 & q1 & p1 & E1 & Hp' & S & En & Cb & _). rewrite E in E1.
    injection E1 as <- <- <-.
    assert (X : forall h t, mp_pooled p' h = Some t <-> mp_pooled p h = Some t /\ unexpired t).
    { intros h t. rewrite (pooled_entry n gap' p' Hp'), (pooled_entry n gap' p Hp), En. split.
      - intros (b & Hin & Hh). apply elem_of_list_filter in Hin as [Ha Hin]. apply alive_unexpired in Ha.
        split; [eauto|exact Ha].
      - intros [(b & Hin & Hh) Hu]. exists b. split; [|exact Hh]. apply elem_of_list_filter.
        split; [apply alive_unexpired; exact Hu|exact Hin]. }
    split; [eapply sublist_nodup; [exact S|apply (entries_nodup n gap' p' Hp')]|].
    split.
    - intros h Hh. assert (Hin : h ∈ map e_hash (entries p')) by (eapply sublist_in; eassumption).
      apply (contains_entry n gap' p' Hp'), (contains_pooled p') in Hin as [t Ht].
      pose proof (proj1 (X h t) Ht) as [Y Z]. eauto.
    - split; [exact X|]. intros h. unfold mp_lookup. rewrite Cb. reflexivity.
  Qed.

  (** No overflow: order and propose lists exactly. *)
  Lemma package_exact : small limit -> Forall (fun x => small_tx x.1) (entries p) ->
    let l := filter (fun x => alive epoch gap' x = true) (entries p) in
    (mp_package p limit e).1 = Ok (map e_hash (fit limit l), map e_hash (proposal limit l)).
  Proof.
    intros Hl Hs. pose proof (sim_package (fun _ => zero_hash) (fun _ _ _ => true) n gap' gap' p (mirror p) limit e
       (mirror_sim n gap' p Hp) Hl Hs) as [A _].
    cbn [mp_step sp_step] in A. destruct (mp_package p limit e) as [r p']. rewrite He in A. cbn in A.
    injection A as ->. reflexivity.
  Qed.

  (** Two packages of the same epoch *)
  Lemma package_idem limit2 : (mp_package (mp_package p limit e).2 limit2 e).1 = (mp_package p limit2 e).1.
  Proof.
    pose proof (package_inv n gap' p limit e Hp) as (P1 & P2 & P3 & P4).
    pose proof (package_inv n gap' p limit2 e Hp) as (_ & _ & _ & Q4).
    pose proof (package_inv n gap' _ limit2 e P1) as (_ & _ & _ & R4). rewrite He in *.
    destruct P4 as (_ & E1 & E2 & _), Q4 as (-> & _), R4 as (-> & _). f_equal. f_equal. apply pick_ext.
    rewrite !keep_entries. unfold entries in E1. rewrite E1. apply filter_filter_in. tauto.
  Qed.
End Pack.

(** ** Flush *)
Lemma flush_facts n gap' p hs : mp_inv n gap' p ->
  mp_inv n gap' (mp_flush p hs) /\
  entries (mp_flush p hs) = filter (fun x => e_hash x ∉ hs) (entries p) /\
  (forall h, mp_pooled (mp_flush p hs) h = if decide (h ∈ hs) then None else mp_pooled p h) /\
  (forall h, mp_lookup (mp_flush p hs) h = if decide (h ∈ hs) then None else mp_pooled p h) /\
  mp_slots (mp_flush p hs) = mp_slots p /\ mp_out (mp_flush p hs) = mp_out p.
Proof.
  intros Hp. pose proof (sim_flush (fun _ => zero_hash) (fun _ _ _ => true) n gap' gap' p (mirror p) hs (mirror_sim n gap' p Hp)) as [_ Hs].
  cbn [mp_step sp_step snd] in Hs. destruct Hs as (S1 & S2 & _).
  assert (P : forall h, mp_pooled (mp_flush p hs) h = if decide (h ∈ hs) then None else mp_pooled p h).
  { intros h. unfold mp_pooled, tc_get, mp_flush, tc_flush. cbn [mp_tc tc_map]. rewrite map_deletes_lookup.
    destruct (decide (h ∈ hs)); reflexivity. }
  split; [exact S1|]. split; [symmetry; exact S2|]. split; [exact P|]. split.
  - intros h. unfold mp_lookup. change (tc_get (mp_tc (mp_flush p hs)) h) with (mp_pooled (mp_flush p hs) h). rewrite P.
    cbn [mp_flush mp_cb]. rewrite lookup_empty. destruct (decide (h ∈ hs)); [reflexivity|]. destruct (mp_pooled p h); reflexivity.
  - split; reflexivity.
Qed.

(** ** Pulling *)
Lemma cb_fold m txs h : (exists t, m !! h = Some t \/ (t ∈ txs /\ st_tx_hash t = h)) <->
  exists t, fold_left cb_insert txs m !! h = Some t.
Proof.
  revert m. induction txs as [|t txs IH]; intros m; cbn [fold_left].
  - split; [intros [t [X|[X _]]]; [eauto|inversion X]|intros [t X]; eauto].
  - rewrite <- IH. unfold cb_insert. split.
    + intros [x [X|[X Hx]]].
      * exists x. left. destruct (m !! st_tx_hash t) eqn:E; [exact X|].
        rewrite lookup_insert_ne; [exact X|]. intros Y. congruence.
      * apply elem_of_cons in X as [->|X]; [|exists x; right; auto].
        destruct (m !! st_tx_hash t) as [y|] eqn:E.
        -- exists y. left. congruence.
        -- exists t. left. rewrite Hx. apply lookup_insert.
    + intros [x [X|[X Hx]]]; [|exists x; right; split; [right; exact X|exact Hx]].
      destruct (m !! st_tx_hash t) as [y|] eqn:E; [eauto|].
      apply lookup_insert_Some in X as [[X ->]|[_ X]]; [|eauto].
      exists x. right. split; [left|exact X].
Qed.
Lemma cb_fold_in m txs h t : fold_left cb_insert txs m !! h = Some t ->
  m !! h = Some t \/ (t ∈ txs /\ st_tx_hash t = h).
Proof.
  revert m. induction txs as [|x txs IH]; intros m; cbn [fold_left]; [auto|]. intros E. apply IH in E as [E|[E1 E2]].
  - unfold cb_insert in E. destruct (m !! st_tx_hash x); [auto|].
    apply lookup_insert_Some in E as [[E ->]|[_ E]]; [|auto]. right. split; [left|exact E].
  - right. split; [right; exact E1|exact E2].
Qed.

Lemma sync_entries txs : forall c : tx_cache, inv c ->
  forall h t, tc_get (fold_left (fun c t => snd (tc_insert c t true)) txs c) h = Some t ->
    tc_get c h = Some t \/ (t ∈ txs /\ st_tx_hash t = h).
Proof.
  induction txs as [|x txs IH]; intros c Hi h t; cbn [fold_left]; [auto|]. intros E.
  destruct (tc_insert c x true) as [r c'] eqn:Ei. cbn [snd] in E.
  destruct (insert_spec _ _ _ _ _ Hi Ei) as (Hi' & _ & Hr). apply (IH c' Hi') in E as [E|[E1 E2]].
  - unfold tc_get in E. apply fmap_Some in E as (w & E & ->). apply (inv_map _ Hi') in E as [Hw <-].
    destruct r as [[]|y|]; [| |contradiction].
    + destruct Hr as (_ & _ & [i Hl] & _). rewrite Hl in Hw. apply elem_of_app in Hw as [Hw|Hw].
      * left. apply fmap_Some. exists w. split; [|reflexivity]. apply (inv_map _ Hi). auto.
      * apply elem_of_list_singleton in Hw as ->. right. split; [left|reflexivity].
    + destruct Hr as (Hl & _). rewrite Hl in Hw. left. apply fmap_Some. exists w. split; [|reflexivity].
      apply (inv_map _ Hi). auto.
  - right. split; [right; exact E1|exact E2].
Qed.

Lemma sync_keeps txs : forall c : tx_cache, inv c ->
  forall h t, tc_get c h = Some t -> tc_get (fold_left (fun c t => snd (tc_insert c t true)) txs c) h = Some t.
Proof.
  induction txs as [|x txs IH]; intros c Hi h t; cbn [fold_left]; [auto|]. intros E.
  destruct (tc_insert c x true) as [r c'] eqn:Ei. cbn [snd].
  destruct (insert_spec _ _ _ _ _ Hi Ei) as (Hi' & _ & Hr). apply (IH c' Hi').
  unfold tc_get in *. apply fmap_Some in E as (w & E & ->). apply (inv_map _ Hi) in E as [Hw <-].
  apply fmap_Some. exists w. split; [|reflexivity]. apply (inv_map _ Hi'). split; [|reflexivity].
  destruct r as [[]|y|]; [| |contradiction].
  - destruct Hr as (_ & _ & [i ->] & _). apply elem_of_app. auto.
  - destruct Hr as (-> & _). exact Hw.
Qed.

(** [get_full_txs] *)
Lemma omap_all {A B} (f : A -> option B) (l : list A) (k : list B) :
  (omap f l = k /\ length k = length l) <-> Forall2 (fun a b => f a = Some b) l k.
Proof.
  revert k. induction l as [|a l IH]; intros k; cbn.
  - split; [intros [<- _]; constructor|]. intros H. inversion H. auto.
  - destruct (f a) as [b|] eqn:E.
    + split.
      * intros [<- H]. cbn in H. constructor; [exact E|]. apply IH. split; [reflexivity|lia].
      * intros H. inversion H as [|? y ? k' H1 H2]; subst. apply IH in H2 as [<- <-]. split; [congruence|]. cbn. congruence.
    + split.
      * intros [<- H]. exfalso. assert (length (omap f l) <= length l)%nat; [|lia].
        clear. induction l as [|a l IH]; cbn; [lia|]. destruct (f a); cbn; lia.
      * intros H. inversion H. congruence.
Qed.

Lemma get_full_iff p hs txs :
  mp_get_full_txs p hs = Ok txs <-> Forall2 (fun h t => mp_lookup p h = Some t) hs txs.
Proof.
  rewrite <- omap_all. unfold mp_get_full_txs. destruct (decide _) as [D|D].
  - split; [intros [= <-]; auto|]. intros [<- _]. reflexivity.
  - split; [discriminate|]. intros [<- X]. contradiction.
Qed.
Lemma get_full_total p hs : (exists txs, mp_get_full_txs p hs = Ok txs) <-> forall h, h ∈ hs -> exists t, mp_lookup p h = Some t.
Proof.
  split.
  - intros [txs E]. apply get_full_iff in E. intros h Hh. induction E; [inversion Hh|].
    apply elem_of_cons in Hh as [->|Hh]; eauto.
  - intros H. induction hs as [|h hs IH].
    + exists []. apply get_full_iff. constructor.
    + destruct (H h ltac:(left)) as [t Ht]. destruct IH as [txs E]; [intros; apply H; right; assumption|].
      exists (t :: txs). apply get_full_iff. constructor; [exact Ht|]. apply get_full_iff. exact E.
Qed.

(** ** Histories *)
Section Hist.
  Context (digest : bytes -> hash) (verify : bytes -> bytes -> bytes -> bool).
  Context (n : nat) (gap gap' : u64).
  Notation mstep := (mp_step digest verify gap).
  Notation mrun := (mp_run digest verify gap).

  (** An invariant of single steps holds along runs. *)
  Lemma run_ind (Q : mempool -> Prop) (G : mp_op -> Prop) :
    (forall p o, mp_inv n gap' p -> Q p -> G o -> Q (mstep p o).2) ->
    forall ops p, mp_inv n gap' p -> Q p -> Forall G ops -> Q (mrun p ops).2.
  Proof.
    intros Hstep ops. induction ops as [|o ops IH]; intros p Hp HQ HG; [exact HQ|].
    inversion HG; subst. cbn [mp_run]. pose proof (inv_step digest verify n gap gap' p o Hp) as Hp1.
    pose proof (Hstep p o Hp HQ H1) as Q1. destruct (mstep p o) as [r p1]. cbn [snd] in *.
    specialize (IH p1 Hp1 Q1 H2). destruct (mrun p1 ops). exact IH.
  Qed.

  (** Where transactions in the pool or among the pulled ones come from *)
  Definition stored (p : mempool) (h : hash) (t : signed_tx) : Prop := mp_pooled p h = Some t \/ mp_cb p !! h = Some t.
  Lemma lookup_stored p h t : mp_lookup p h = Some t -> stored p h t.
  Proof. unfold mp_lookup, stored, mp_pooled. destruct (tc_get _ h); auto. Qed.
  Lemma stored_lookup p h t : stored p h t -> exists t', mp_lookup p h = Some t'.
  Proof. unfold mp_lookup, stored, mp_pooled. destruct (tc_get _ h); [eauto|]. intros [X|X]; [discriminate|eauto]. Qed.

  Lemma step_source p o h t : mp_inv n gap' p -> stored (mstep p o).2 h t ->
    stored p h t \/ (st_tx_hash t = h /\
    match o with
    | OpInsert net x e b => x = t /\ tx_ok digest verify gap e t
    | OpEnsure hs pull | OpSync hs pull => exists hs' txs, pull hs' = Ok txs /\ t ∈ txs
    | _ => False
    end).
  Proof.
    intros Hp. destruct o as [net x e b|limit e|hs|hs pull|hs pull|hs]; cbn [mp_step].
    - pose proof (insert_outcome digest verify n gap gap' p net x e b Hp) as H.
      destruct (mp_insert _ _ _ p net x e b) as [r p']. cbn [snd]. destruct H as (Hp' & Hcb & H).
      intros [E|E]; [|left; right; congruence]. apply (pooled_entry n gap' p' Hp') in E as (bb & Hin & Hh).
      assert (D : (t, bb) ∈ entries p \/ (t = x /\ tx_ok digest verify gap e x)).
      { destruct H as [(Ha & _ & E & _)|(_ & _ & E & _)]; rewrite E in Hin; [|auto].
        apply elem_of_app in Hin as [Hin|Hin]; [auto|]. apply elem_of_list_singleton in Hin. injection Hin as -> ->.
        right. split; [reflexivity|apply Ha]. }
      destruct D as [D|[-> D]]; [|right; auto]. left. left. apply (pooled_entry n gap' p Hp). eauto.
    - destruct (en_latest e) as [[ch epoch]|x|] eqn:He.
      + destruct (package_lists n gap' p Hp limit e ch epoch He) as (o & q & p' & E & _ & _ & _ & Hcb & _). rewrite E. cbn [snd].
        destruct (package_facts n gap' p Hp limit e ch epoch He o q p' E) as (_ & _ & X & Y).
        intros [Z|Z]; [|left; right; congruence]. left. left. apply X. exact Z.
      + unfold mp_package. rewrite He. auto.
      + unfold mp_package. rewrite He. auto.
    - cbn [snd]. destruct (flush_facts n gap' p hs Hp) as (_ & _ & E & _). intros [Z|Z].
      + rewrite E in Z. destruct (decide (h ∈ hs)); [discriminate|]. left. left. exact Z.
      + cbn in Z. rewrite lookup_empty in Z. discriminate.
    - unfold mp_ensure_order_txs. destruct (tc_show_unknown _ _) as [|u us]; [auto|].
      destruct (pull (u :: us)) as [txs|x|] eqn:Epl; [|auto|auto]. destruct (decide _); [|auto].
      intros [Z|Z]; [left; left; exact Z|]. cbn in Z. apply cb_fold_in in Z as [Z|[Z1 Z2]]; [left; right; exact Z|].
      right. eauto.
    - unfold mp_sync_propose_txs. destruct (tc_show_unknown _ _) as [|u us]; [auto|].
      destruct (pull (u :: us)) as [txs|x|] eqn:Epl; [|auto|auto].
      intros [Z|Z]; [|left; right; exact Z]. apply (sync_entries txs) in Z as [Z|[Z1 Z2]]; [left; left; exact Z| |apply Hp].
      right. eauto.
    - auto.
  Qed.

  (** What stays *)
  Lemma step_keeps p o h t : mp_inv n gap' p -> stored p h t ->
    match o with OpFlush _ | OpPackage _ _ => False | _ => True end -> exists t', stored (mstep p o).2 h t'.
  Proof.
    intros Hp. destruct o as [net x e b|limit e|hs|hs pull|hs pull|hs]; cbn [mp_step]; intros Hst Ho; try contradiction.
    - pose proof (insert_outcome digest verify n gap gap' p net x e b Hp) as H.
      destruct (mp_insert _ _ _ p net x e b) as [r p']. cbn [snd]. destruct H as (Hp' & Hcb & H). exists t.
      destruct Hst as [Z|Z]; [left|right; congruence]. apply (pooled_entry n gap' p Hp) in Z as (bb & Hin & Hh).
      apply (pooled_entry n gap' p' Hp'). exists bb. split; [|exact Hh].
      destruct H as [(_ & _ & -> & _)|(_ & _ & -> & _)]; [apply elem_of_app; auto|auto].
    - exists t. unfold mp_ensure_order_txs. destruct (tc_show_unknown _ _) as [|u us]; [auto|].
      destruct (pull (u :: us)) as [txs|x|] eqn:Epl; [|auto|auto]. destruct (decide _); [|auto].
      destruct Hst as [Z|Z]; [left; exact Z|]. right. cbn.
      clear -Z. revert Z. generalize (mp_cb p). induction txs as [|x txs IH]; intros m Z; [exact Z|]. cbn. apply IH.
      unfold cb_insert. destruct (m !! st_tx_hash x) eqn:E; [exact Z|]. rewrite lookup_insert_ne; [exact Z|congruence].
    - exists t. unfold mp_sync_propose_txs. destruct (tc_show_unknown _ _) as [|u us]; [auto|].
      destruct (pull (u :: us)) as [txs|x|] eqn:Epl; [|auto|auto].
      destruct Hst as [Z|Z]; [left|right; exact Z]. apply sync_keeps; [apply Hp|exact Z].
    - eauto.
  Qed.

  Lemma step_len p o : mp_inv n gap' p -> match o with OpSync _ _ => False | _ => True end ->
    (mp_len p <= n)%nat -> (mp_len (mstep p o).2 <= n)%nat.
  Proof.
    intros Hp Ho Hl. pose proof (inv_step digest verify n gap gap' p o Hp) as Hp1.
    destruct o as [net x e b|limit e|hs|hs pull|hs pull|hs]; cbn [mp_step] in *; try contradiction.
    - pose proof (insert_outcome digest verify n gap gap' p net x e b Hp) as H.
      destruct (mp_insert _ _ _ p net x e b) as [r p']. cbn [snd] in *. destruct H as (_ & _ & H).
      rewrite (len_entries n gap' p' Hp1). rewrite (len_entries n gap' p Hp) in Hl.
      destruct H as [(Ha & _ & -> & _)|(_ & _ & -> & _)]; [|exact Hl]. destruct Ha as (Ha & _).
      rewrite (len_entries n gap' p Hp) in Ha. rewrite app_length. cbn. lia.
    - destruct (en_latest e) as [[ch epoch]|x|] eqn:He.
      + destruct (package_lists n gap' p Hp limit e ch epoch He) as (o & q & p' & E & H1 & _ & E2 & _). rewrite E in *. cbn [snd] in *.
        rewrite (len_entries n gap' p' Hp1), E2. rewrite (len_entries n gap' p Hp) in Hl. 
        etransitivity; [apply filter_length|exact Hl].
      + unfold mp_package. rewrite He. exact Hl.
      + unfold mp_package. rewrite He. exact Hl.
    - destruct (flush_facts n gap' p hs Hp) as (_ & E & _). cbn [snd] in *. rewrite (len_entries n gap' _ Hp1), E.
      rewrite (len_entries n gap' p Hp) in Hl. etransitivity; [apply filter_length|exact Hl].
    - unfold mp_ensure_order_txs in *. destruct (tc_show_unknown _ _) as [|u us]; [exact Hl|].
      destruct (pull (u :: us)) as [txs|x|] eqn:Epl; [|exact Hl|exact Hl]. destruct (decide _); exact Hl.
    - exact Hl.
  Qed.

  (** Without flush no slot is wasted. *)
  Lemma step_slots p o : mp_inv n gap' p -> match o with OpFlush _ => False | _ => True end ->
    mp_slots p = mp_len p -> mp_slots (mstep p o).2 = mp_len (mstep p o).2.
  Proof.
    intros Hp Ho Hl. pose proof (inv_step digest verify n gap gap' p o Hp) as Hp1.
    assert (D : dead p = 0%nat). { rewrite (slots_entries p), (len_entries n gap' p Hp) in Hl. lia. }
    cut (dead (mstep p o).2 = 0%nat). { intros D1. rewrite slots_entries, (len_entries n gap' _ Hp1). lia. }
    pose proof (mirror_sim n gap' p Hp) as Hs.
    destruct o as [net x e b|limit e|hs|hs pull|hs pull|hs]; try contradiction.
    - pose proof (insert_outcome digest verify n gap gap' p net x e b Hp) as H. cbn [mp_step] in *.
      destruct (mp_insert _ _ _ p net x e b) as [r p']. cbn [snd] in *. destruct H as (_ & _ & H).
      pose proof (slots_entries p'). pose proof (slots_entries p).
      destruct H as [(Ha & _ & E & E2 & _)|(_ & _ & E & E2 & _)]; rewrite E in *; rewrite ?app_length in *; cbn in *; lia.
    - cbn [mp_step] in *. pose proof (package_inv n gap' p limit e Hp) as (_ & _ & _ & P).
      destruct (mp_package p limit e) as [r p'] eqn:E. cbn [fst snd] in *.
      destruct (en_latest e) as [[ch epoch]|x|] eqn:He; [apply P|destruct P as [_ ->]; exact D|destruct P as [_ ->]; exact D].
    - destruct (sim_ensure digest verify n gap gap' p (mirror p) hs pull Hs) as [_ (_ & _ & <- & _)].
      cbn [sp_step]. destruct (decide _); [exact D|]. destruct (pull _) as [txs|x|]; [|exact D|exact D].
      destruct (decide _); exact D.
    - destruct (sim_sync digest verify n gap gap' p (mirror p) hs pull Hs) as [_ (_ & _ & <- & _)].
      cbn [sp_step]. destruct (decide _); [exact D|]. destruct (pull _) as [txs|x|]; [|exact D|exact D].
      cbn [snd]. assert (X : sp_dead (mirror p) = 0%nat) by exact D. clear -X. revert X. generalize (mirror p).
      induction txs as [|t txs IH]; intros s Hs; [exact Hs|]. cbn. apply IH. unfold sp_add.
      destruct (decide _); [exact Hs|]. destruct (_ <=? _)%nat; exact Hs.
    - exact D.
  Qed.

  (** What is handed to the broadcaster *)
  Lemma step_out p o : mp_inv n gap' p ->
    mp_out (mstep p o).2 = mp_out p ++
      match o with
      | OpInsert false t _ _ => if negb (mp_contains p (st_tx_hash t)) && mp_contains (mstep p o).2 (st_tx_hash t) then [t] else []
      | _ => []
      end.
  Proof.
    intros Hp. pose proof (inv_step digest verify n gap gap' p o Hp) as Hp1.
    destruct o as [net x e b|limit e|hs|hs pull|hs pull|hs]; cbn [mp_step] in *.
    - pose proof (insert_outcome digest verify n gap gap' p net x e b Hp) as H.
      destruct (mp_insert _ _ _ p net x e b) as [r p']. cbn [snd] in *. destruct H as (_ & _ & H).
      destruct H as [(Ha & _ & E & _ & ->)|(_ & _ & E & _ & ->)].
      + destruct Ha as (_ & Ha & _). rewrite Ha.
        assert (X : mp_contains p' (st_tx_hash x) = true).
        { apply (contains_entry n gap' p' Hp1). rewrite E, map_app. apply elem_of_app. right. left. }
        rewrite X. destruct net; reflexivity.
      + assert (X : mp_contains p' (st_tx_hash x) = mp_contains p (st_tx_hash x)).
        { apply eq_true_iff_eq. rewrite (contains_entry n gap' p Hp), (contains_entry n gap' p' Hp1), E. reflexivity. }
        rewrite X. rewrite andb_negb_l. destruct net; rewrite app_nil_r; reflexivity.
    - rewrite app_nil_r. pose proof (package_inv n gap' p limit e Hp) as (_ & _ & P & _).
      destruct (mp_package p limit e). exact P.
    - rewrite app_nil_r. reflexivity.
    - rewrite app_nil_r. unfold mp_ensure_order_txs. destruct (tc_show_unknown _ _); [reflexivity|].
      destruct (pull _); [|reflexivity|reflexivity]. destruct (decide _); reflexivity.
    - rewrite app_nil_r. unfold mp_sync_propose_txs. destruct (tc_show_unknown _ _); [reflexivity|].
      destruct (pull _); reflexivity.
    - rewrite app_nil_r. reflexivity.
  Qed.
End Hist.

(** ** Completeness, authenticity *)
Section More.
  Context (digest : bytes -> hash) (verify : bytes -> bytes -> bytes -> bool).
  Context (n : nat) (gap gap' : u64).

  Lemma ensure_stored p hs pull p1 : mp_inv n gap' p ->
    (forall k txs, pull k = Ok txs -> length txs = length k -> forall h, h ∈ k -> exists t, t ∈ txs /\ st_tx_hash t = h) ->
    mp_ensure_order_txs p hs pull = (Ok tt, p1) -> forall h, h ∈ hs -> exists t, stored p1 h t.
  Proof.
    intros Hp Hpull E h Hh. unfold mp_ensure_order_txs in E.
    destruct (mp_contains p h) eqn:Ec.
    - apply contains_pooled in Ec as [t Ht]. exists t. left.
      destruct (tc_show_unknown (mp_tc p) hs) as [|u us]; [injection E as <-; exact Ht|].
      destruct (pull (u :: us)) as [txs|x|]; [|discriminate E|discriminate E].
      destruct (decide _); [injection E as <-; exact Ht|discriminate E].
    - assert (Hu : h ∈ tc_show_unknown (mp_tc p) hs) by (apply elem_of_list_filter; split; assumption).
      destruct (tc_show_unknown (mp_tc p) hs) as [|u us]; [inversion Hu|].
      destruct (pull (u :: us)) as [txs|x|] eqn:Epl; [|discriminate E|discriminate E].
      destruct (decide _) as [D|D]; [injection E as <-|discriminate E].
      destruct (Hpull _ _ Epl D h Hu) as (t & Ht & Hth).
      destruct (proj1 (cb_fold (mp_cb p) txs h)) as [t' Ht']; [exists t; auto|]. exists t'. right. exact Ht'.
  Qed.

  Lemma tx_ok_iff e t : tx_ok digest verify gap e t <->
    verify (sbytes (st_tx_hash t)) (st_signature t) (st_pubkey t) = true /\
    digest (enc_raw (st_raw t)) = st_tx_hash t /\
    (exists epoch : u64, en_latest e = Ok (rt_chain_id (st_raw t), epoch) /\
       epoch <= rt_timeout (st_raw t) /\ rt_timeout (st_raw t) <= (epoch + gap) mod two64) /\
    en_stored e (st_tx_hash t) = Ok false.
  Proof.
    unfold tx_ok, check_signature, check_transaction, check_storage_exist.
    destruct (verify _ _ _); cbn [rbind]; [|split; [discriminate|intros (X & _); discriminate]].
    destruct (decide _) as [D|D]; [|split; [discriminate|tauto]].
    destruct (en_latest e) as [[chain epoch]|x|]; cbn [rbind];
      [|split; [discriminate|intros (_ & _ & (? & X & _) & _); discriminate]..].
    destruct (decide _) as [D2|D2]; [|split; [discriminate|intros (_ & _ & (? & X & _) & _); congruence]].
    destruct (wrap64 (epoch + gap) <? rt_timeout (st_raw t)) eqn:E1.
    { apply N.ltb_lt in E1. split; [discriminate|]. intros (_ & _ & (ep & X & _ & Y) & _). injection X as _ ->.
      change (u64v (wrap64 (ep + gap))) with ((ep + gap) mod two64) in E1. lia. }
    apply N.ltb_ge in E1. destruct (rt_timeout (st_raw t) <? epoch) eqn:E2.
    { apply N.ltb_lt in E2. split; [discriminate|]. intros (_ & _ & (ep & X & Y & _) & _). injection X as _ ->. lia. }
    apply N.ltb_ge in E2. cbn [rbind]. destruct (en_stored e (st_tx_hash t)) as [[]|x|]; cbn [rbind].
    - split; [discriminate|]. intros (_ & _ & _ & X). discriminate.
    - split; [|reflexivity]. intros _. split; [reflexivity|]. split; [exact D|]. split; [|reflexivity].
      exists epoch. subst chain. split; [reflexivity|]. split; [exact E2|exact E1].
    - split; [discriminate|]. intros (_ & _ & _ & X). discriminate.
    - split; [discriminate|]. intros (_ & _ & _ & X). discriminate.
  Qed.

  Definition authentic (t : signed_tx) : Prop :=
    verify (sbytes (st_tx_hash t)) (st_signature t) (st_pubkey t) = true /\ digest (enc_raw (st_raw t)) = st_tx_hash t.

  Lemma authentic_stored ops h t :
    Forall (fun o => match o with OpEnsure _ pull | OpSync _ pull => forall k txs, pull k = Ok txs -> Forall authentic txs
                                | _ => True end) ops ->
    stored (pool_after digest verify n gap gap' ops) h t -> authentic t.
  Proof.
    intros Hops. revert Hops.
    intros Hops. 
    apply (run_ind digest verify n gap gap' (fun p => stored p h t -> authentic t)
      (fun o => match o with OpEnsure _ pull | OpSync _ pull => forall k txs, pull k = Ok txs -> Forall authentic txs
                                | _ => True end)).
    - intros p o Hp IH Ho Hst. apply (step_source digest verify n gap gap' p o h t Hp) in Hst as [Hst|[Hh Hst]]; [auto|].
      destruct o as [net x e b|limit e|hs|hs pull|hs pull|hs]; try contradiction.
      + destruct Hst as [_ Hst]. apply tx_ok_iff in Hst. split; apply Hst.
      + destruct Hst as (k & txs & E & Hin). specialize (Ho _ _ E). rewrite Forall_forall in Ho. auto.
      + destruct Hst as (k & txs & E & Hin). specialize (Ho _ _ E). rewrite Forall_forall in Ho. auto.
    - apply inv_new.
    - intros [X|X].
      + apply (pooled_entry n gap' _ (inv_new n gap')) in X as (b & X & _). inversion X.
      + cbn in X. rewrite lookup_empty in X. discriminate.
    - exact Hops.
  Qed.

  Lemma forged p h t : mp_inv n gap' p -> st_tx_hash t = h -> mp_lookup p h = None ->
    let '(r, p1) := mp_ensure_order_txs p [h] (fun _ => Ok [t]) in r = Ok tt /\ mp_get_full_txs p1 [h] = Ok [t].
  Proof.
    intros Hp Ht Hn. unfold mp_lookup in Hn. destruct (tc_get (mp_tc p) h) eqn:E; [discriminate|].
    assert (Hc : tc_contain (mp_tc p) h = false).
    { destruct (tc_contain (mp_tc p) h) eqn:Ec; [|reflexivity]. apply contains_pooled in Ec as [x Ec]. unfold mp_pooled in Ec. congruence. }
    unfold mp_ensure_order_txs, tc_show_unknown. rewrite filter_cons_True by exact Hc.
    rewrite filter_nil. rewrite decide_True by reflexivity. split; [reflexivity|].
    apply get_full_iff. constructor; [|constructor]. unfold mp_lookup. cbn [mp_tc mp_cb]. rewrite E.
    cbn. unfold cb_insert. rewrite Ht, Hn. apply lookup_insert.
  Qed.

  (** ** The head of the queue *)
  Definition headed (t : signed_tx) (p : mempool) : Prop := exists b l, entries p = (t, b) :: l.

  Lemma adds_prefix txs s : exists l, sp_txs (fold_left (fun s t => snd (sp_add n s t true)) txs s) = sp_txs s ++ l.
  Proof.
    revert s. induction txs as [|t txs IH]; intros s; [exists []; rewrite app_nil_r; reflexivity|]. cbn [fold_left].
    destruct (IH (sp_add n s t true).2) as [l E]. rewrite E. unfold sp_add. destruct (decide _); [eauto|].
    destruct (_ <=? _)%nat; [eauto|]. cbn. rewrite <- app_assoc. eauto.
  Qed.

  Lemma head_stays t p o : mp_inv n gap' p -> headed t p ->
    match o with
    | OpFlush hs => st_tx_hash t ∉ hs
    | OpPackage _ e => forall ch epoch, en_latest e = Ok (ch, epoch) -> alive epoch gap' (t, false) = true
    | _ => True end ->
    headed t (mp_step digest verify gap p o).2.
  Proof.
    intros Hp (b & l & E) Ho. pose proof (mirror_sim n gap' p Hp) as Hs. unfold headed.
    destruct o as [net x e bb|limit e|hs|hs pull|hs pull|hs].
    - pose proof (insert_outcome digest verify n gap gap' p net x e bb Hp) as H. cbn [mp_step].
      destruct (mp_insert _ _ _ p net x e bb) as [r p']. cbn [snd]. destruct H as (_ & _ & H).
      destruct H as [(_ & _ & -> & _)|(_ & _ & -> & _)]; rewrite E; [|eauto]. cbn. eauto.
    - cbn [mp_step]. destruct (en_latest e) as [[ch epoch]|x|] eqn:He.
      + destruct (package_lists n gap' p Hp limit e ch epoch He) as (o & q & p' & Ep & _ & _ & E2 & _). rewrite Ep. cbn [snd].
        rewrite E2, E. rewrite filter_cons_True by (apply (Ho _ _ eq_refl)). eauto.
      + unfold mp_package. rewrite He. cbn. eauto.
      + unfold mp_package. rewrite He. cbn. eauto.
    - cbn [mp_step snd]. destruct (flush_facts n gap' p hs Hp) as (_ & -> & _). rewrite E, filter_cons_True by exact Ho. eauto.
    - destruct (sim_ensure digest verify n gap gap' p (mirror p) hs pull Hs) as [_ (_ & <- & _)].
      cbn [sp_step]. destruct (decide _); [eauto|]. destruct (pull _) as [txs|x|]; [|eauto|eauto].
      destruct (decide _); eauto.
    - destruct (sim_sync digest verify n gap gap' p (mirror p) hs pull Hs) as [_ (_ & <- & _)].
      cbn [sp_step]. destruct (decide _); [eauto|]. destruct (pull _) as [txs|x|]; [|eauto|eauto].
      cbn [snd]. destruct (adds_prefix txs (mirror p)) as [k ->]. cbn [mirror sp_txs]. rewrite E. cbn. eauto.
    - cbn. eauto.
  Qed.

  Lemma pick_big_head (limit : u64) w l : limit < tx_cycle (w_tx w) ->
    (pick limit OrderTxs (wrap64 0) (w :: l)).1.1 = [].
  Proof.
    intros H. cbn [pick].
    replace (u64v (wrap64 (wrap64 0 + tx_cycle (w_tx w)))) with (u64v (tx_cycle (w_tx w))).
    2:{ change (u64v (wrap64 (wrap64 0 + tx_cycle (w_tx w)))) with ((0 + tx_cycle (w_tx w)) mod two64).
        rewrite N.add_0_l. symmetry. apply N.mod_small. apply u64_lt. }
    apply N.ltb_lt in H. rewrite H.
    pose proof (pick_sublist limit ProposeTxs (tx_cycle (w_tx w)) l) as P.
    destruct (pick limit ProposeTxs (tx_cycle (w_tx w)) l) as [[o q] r]. cbn. apply P. discriminate.
  Qed.

  Lemma head_blocks t p (limit : u64) e ch epoch : mp_inv n gap' p -> headed t p ->
    en_latest e = Ok (ch, epoch) -> alive epoch gap' (t, false) = true ->
    limit < fee_cycle (rt_fee (st_raw t)) ->
    exists q, (mp_package p limit e).1 = Ok ([], q).
  Proof.
    intros Hp (b & l & E) He Ha Hl. pose proof (package_inv n gap' p limit e Hp) as (_ & _ & _ & P). rewrite He in P.
    destruct P as (-> & _). unfold entries in E. destruct (live (mp_tc p)) as [|w ws]; [discriminate E|].
    cbn [map] in E. injection E as E1 E2 E3.
    rewrite filter_cons_True.
    - pose proof (pick_big_head limit w (filter (fun w => is_timeout (w_tx w) epoch (wrap64 (epoch + gap')) = false) ws)) as X.
      rewrite E1 in X. specialize (X Hl). destruct (pick _ _ _ _) as [[o q] r]. cbn in X. subst o. exists q. reflexivity.
    - apply timeout_alive. rewrite <- E1 in Ha. exact Ha.
  Qed.

  (** ** Proposals *)
  Lemma pick_unproposed limit st cnt l :
    let '(o, q, _) := pick limit st cnt l in
    exists k, q = map w_hash k /\ (forall w, w ∈ k -> w ∈ l) /\
      match st with OrderTxs => forall w, w ∈ tail k -> w_proposed w = false | _ => forall w, w ∈ k -> w_proposed w = false end.
  Proof.
    revert st cnt. induction l as [|w l IH]; intros st cnt.
    - cbn. exists []. split; [reflexivity|]. split; [auto|]. destruct st; intros w X; inversion X.
    - cbn [pick]. destruct st.
      + destruct (limit <? _).
        * specialize (IH ProposeTxs (tx_cycle (w_tx w))). destruct (pick _ _ _ _) as [[o p] r].
          destruct IH as (k & -> & H1 & H2). exists (w :: k). split; [reflexivity|]. split.
          -- intros x Hx. apply elem_of_cons in Hx as [->|Hx]; [left|right; auto].
          -- cbn. exact H2.
        * specialize (IH OrderTxs (wrap64 (cnt + tx_cycle (w_tx w)))). destruct (pick _ _ _ _) as [[o p] r].
          destruct IH as (k & -> & H1 & H2). exists k. split; [reflexivity|]. split; [intros; right; auto|exact H2].
      + destruct (w_proposed w) eqn:Ew; [|destruct (limit <? _)].
        * specialize (IH ProposeTxs cnt). destruct (pick _ _ _ _) as [[o p] r].
          destruct IH as (k & -> & H1 & H2). exists k. split; [reflexivity|]. split; [intros; right; auto|exact H2].
        * specialize (IH Finished (tx_cycle (w_tx w))). destruct (pick _ _ _ _) as [[o p] r].
          destruct IH as (k & -> & H1 & H2). exists k. split; [reflexivity|]. split; [intros; right; auto|exact H2].
        * specialize (IH ProposeTxs (wrap64 (cnt + tx_cycle (w_tx w)))). destruct (pick _ _ _ _) as [[o p] r].
          destruct IH as (k & -> & H1 & H2). exists (w :: k). split; [reflexivity|]. split.
          -- intros x Hx. apply elem_of_cons in Hx as [->|Hx]; [left|right; auto].
          -- intros x Hx. apply elem_of_cons in Hx as [->|Hx]; auto.
      + specialize (IH Finished cnt). destruct (pick _ _ _ _) as [[o p] r].
        destruct IH as (k & -> & H1 & H2). exists k. split; [reflexivity|]. split; [intros; right; auto|exact H2].
  Qed.

  Lemma propose_tail p limit e o q p' : mp_inv n gap' p -> mp_package p limit e = (Ok (o, q), p') ->
    forall h, h ∈ tail q -> mp_proposed p h = Some false.
  Proof.
    intros Hp E h Hh. pose proof (package_inv n gap' p limit e Hp) as (_ & _ & _ & P). rewrite E in P.
    destruct (en_latest e) as [[ch epoch]|x|]; [|destruct P as [X _]; discriminate X|destruct P as [X _]; discriminate X].
    destruct P as (X & _). cbn [fst] in X. injection X as X.
    set (l := filter _ (live (mp_tc p))) in *. pose proof (pick_unproposed limit OrderTxs (wrap64 0) l) as P.
    destruct (pick limit OrderTxs (wrap64 0) l) as [[o1 q1] r]. cbn in X. injection X as -> ->.
    destruct P as (k & -> & H1 & H2). destruct k as [|w k]; [inversion Hh|]. cbn in Hh, H2.
    apply elem_of_list_fmap in Hh as (x & -> & Hx). apply (proposed_entry n gap' p Hp). exists (w_tx x). split; [|reflexivity].
    unfold entries. apply elem_of_list_fmap. exists x. split; [unfold ent; rewrite (H2 x Hx); reflexivity|].
    assert (Hl : x ∈ l) by (apply H1; right; exact Hx). apply elem_of_list_filter in Hl. apply Hl.
  Qed.
End More.
