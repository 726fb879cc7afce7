(** * Refinement and derived facts for the pool. *)
From Verif Require Import Base BaseFacts Hex Types Rlp FixedCodec Mempool MempoolSpec MempoolFacts.
Local Open Scope N_scope.

Definition ent (w : wrapper) : entry := (w_tx w, w_proposed w).
Lemma ent_hash w : e_hash (ent w) = w_hash w. Proof. reflexivity. Qed.
Lemma ent_hashes l : map e_hash (map ent l) = map w_hash l.
Proof. rewrite map_map. reflexivity. Qed.
Lemma ent_cycles w : cycles (ent w) = u64v (tx_cycle (w_tx w)). Proof. reflexivity. Qed.

Lemma wrap_small a b : small a -> small b -> u64v (wrap64 (a + b)) = a + b.
Proof.
  unfold small. intros Ha Hb. change (u64v (wrap64 (a + b))) with ((a + b) mod two64). apply N.mod_small.
  change two64 with 18446744073709551616. lia.
Qed.

(** ** pick and fit *)
Lemma pick_finished limit cnt l : (pick limit Finished cnt l).1 = ([], []).
Proof. revert cnt. induction l as [|w l IH]; intros cnt; cbn; [reflexivity|apply IH]. Qed.

Lemma map_filter_ent (l : list wrapper) :
  filter (fun e : entry => e.2 = false) (map ent l) = map ent (filter (fun w => w_proposed w = false) l).
Proof.
  induction l as [|w l IH]; [reflexivity|]. cbn [map]. rewrite !filter_cons. cbn [ent snd].
  destruct (decide (w_proposed w = false)); cbn [map]; rewrite IH; reflexivity.
Qed.

Lemma pick_propose (limit cnt : u64) (l : list wrapper) : small limit -> small cnt -> Forall (fun w => small (tx_cycle (w_tx w))) l ->
  (pick limit ProposeTxs cnt l).1 =
  ([], map e_hash (if cnt <=? limit then fit (limit - cnt) (filter (fun e => e.2 = false) (map ent l)) else [])).
Proof.
  intros Hlim Hcnt Hl. revert cnt Hcnt. induction Hl as [|w l Hw Hl IH]; intros cnt Hcnt.
  - cbn. destruct (cnt <=? limit); reflexivity.
  - cbn [pick map]. rewrite filter_cons. cbn [ent snd]. destruct (w_proposed w) eqn:Ep.
    + rewrite decide_False by discriminate. apply IH. exact Hcnt.
    + rewrite decide_True by reflexivity. rewrite wrap_small by assumption.
      destruct (limit <? cnt + tx_cycle (w_tx w)) eqn:Eo.
      * rewrite pick_finished. apply N.ltb_lt in Eo. destruct (cnt <=? limit) eqn:El; [|reflexivity].
        apply N.leb_le in El. cbn [fit]. rewrite ent_cycles.
        replace (tx_cycle (w_tx w) <=? limit - cnt) with false by (symmetry; apply N.leb_gt; lia). reflexivity.
      * apply N.ltb_ge in Eo. specialize (IH (wrap64 (cnt + tx_cycle (w_tx w)))).
        rewrite wrap_small in IH by assumption.
        assert (Hs : small (cnt + tx_cycle (w_tx w))) by (unfold small in *; lia). specialize (IH Hs).
        destruct (pick limit ProposeTxs (wrap64 (cnt + tx_cycle (w_tx w))) l) as [[o p] r]. cbn [fst] in *.
        injection IH as -> ->.
        replace (cnt <=? limit) with true by (symmetry; apply N.leb_le; lia).
        replace (cnt + tx_cycle (w_tx w) <=? limit) with true by (symmetry; apply N.leb_le; lia).
        cbn [fit]. change (cycles (ent w)) with (u64v (tx_cycle (w_tx w))).
        replace (tx_cycle (w_tx w) <=? limit - cnt) with true by (symmetry; apply N.leb_le; lia).
        cbn [map]. f_equal. f_equal. rewrite N.sub_add_distr. reflexivity.
Qed.

Definition proposal_after (limit budget : N) (l : list entry) : list entry :=
  match skipn (length (fit budget l)) l with
  | [] => []
  | e :: l' =>
      e :: (if cycles e <=? limit then fit (limit - cycles e) (filter (fun e => e.2 = false) l') else [])
  end.

Lemma pick_order (limit cnt : u64) (l : list wrapper) : small limit -> u64v cnt <= limit -> Forall (fun w => small (tx_cycle (w_tx w))) l ->
  (pick limit OrderTxs cnt l).1 =
  (map e_hash (fit (limit - cnt) (map ent l)), map e_hash (proposal_after limit (limit - cnt) (map ent l))).
Proof.
  intros Hlim Hcnt Hl. revert cnt Hcnt. induction Hl as [|w l Hw Hl IH]; intros cnt Hcnt; [reflexivity|].
  cbn [pick map]. assert (Hc : small cnt) by (unfold small in *; lia).
  rewrite wrap_small by assumption. unfold proposal_after. cbn [fit].
  change (cycles (ent w)) with (u64v (tx_cycle (w_tx w))).
  destruct (limit <? cnt + tx_cycle (w_tx w)) eqn:Eo.
  - apply N.ltb_lt in Eo. replace (tx_cycle (w_tx w) <=? limit - cnt) with false by (symmetry; apply N.leb_gt; lia).
    cbn [length skipn map]. pose proof (pick_propose limit (tx_cycle (w_tx w)) l Hlim Hw Hl) as P.
    destruct (pick limit ProposeTxs (tx_cycle (w_tx w)) l) as [[o p] r]. cbn [fst] in *. injection P as -> ->.
    reflexivity.
  - apply N.ltb_ge in Eo. replace (tx_cycle (w_tx w) <=? limit - cnt) with true by (symmetry; apply N.leb_le; lia).
    cbn [length skipn map].
    specialize (IH (wrap64 (cnt + tx_cycle (w_tx w)))). rewrite wrap_small in IH by assumption. specialize (IH Eo).
    destruct (pick limit OrderTxs (wrap64 (cnt + tx_cycle (w_tx w))) l) as [[o p] r]. cbn [fst] in *.
    injection IH as -> ->. rewrite N.sub_add_distr. reflexivity.
Qed.

Lemma pick_spec (limit : u64) (l : list wrapper) : small limit -> Forall (fun w => small (tx_cycle (w_tx w))) l ->
  (pick limit OrderTxs (wrap64 0) l).1 = (map e_hash (fit limit (map ent l)), map e_hash (proposal limit (map ent l))).
Proof.
  intros H1 H2. rewrite pick_order; [|exact H1|cbn; apply N.le_0_l|exact H2].
  change (u64v (wrap64 0)) with 0. rewrite N.sub_0_r. reflexivity.
Qed.

(** Without any bound on the cycles. *)
Lemma pick_sublist limit st cnt l :
  let '(o, p, _) := pick limit st cnt l in
  (exists k, o = map w_hash (take k l) /\ p `sublist_of` map w_hash (drop k l)) /\
  (st <> OrderTxs -> o = []).
Proof.
  revert st cnt. induction l as [|w l IH]; intros st cnt.
  - cbn. split; [|reflexivity]. exists 0%nat. split; [reflexivity|constructor].
  - cbn [pick]. destruct st.
    + destruct (limit <? _).
      * specialize (IH ProposeTxs (tx_cycle (w_tx w))). destruct (pick _ _ _ _) as [[o p] r].
        destruct IH as [[k [E S]] Ho]. specialize (Ho ltac:(discriminate)). split; [|congruence].
        exists 0%nat. split; [exact Ho|]. cbn. apply sublist_skip.
        assert (S' : map w_hash (drop k l) `sublist_of` map w_hash l) by (apply fmap_sublist, sublist_drop).
        etransitivity; eassumption.
      * specialize (IH OrderTxs (wrap64 (cnt + tx_cycle (w_tx w)))). destruct (pick _ _ _ _) as [[o p] r].
        destruct IH as [[k [E S]] _]. split; [|congruence]. exists (Datatypes.S k). cbn. rewrite E. auto.
    + destruct (w_proposed w); [|destruct (limit <? _)].
      * specialize (IH ProposeTxs cnt). destruct (pick _ _ _ _) as [[o p] r].
        destruct IH as [[k [E S]] Ho]. specialize (Ho ltac:(discriminate)). split; [|auto].
        exists 0%nat. split; [exact Ho|]. cbn. apply sublist_cons.
        etransitivity; [exact S|apply fmap_sublist, sublist_drop].
      * specialize (IH Finished (tx_cycle (w_tx w))). destruct (pick _ _ _ _) as [[o p] r].
        destruct IH as [[k [E S]] Ho]. specialize (Ho ltac:(discriminate)). split; [|auto].
        exists 0%nat. split; [exact Ho|]. cbn. apply sublist_cons.
        etransitivity; [exact S|apply fmap_sublist, sublist_drop].
      * specialize (IH ProposeTxs (wrap64 (cnt + tx_cycle (w_tx w)))). destruct (pick _ _ _ _) as [[o p] r].
        destruct IH as [[k [E S]] Ho]. specialize (Ho ltac:(discriminate)). split; [|auto].
        exists 0%nat. split; [exact Ho|]. cbn. apply sublist_skip.
        etransitivity; [exact S|apply fmap_sublist, sublist_drop].
    + specialize (IH Finished cnt). destruct (pick _ _ _ _) as [[o p] r].
      destruct IH as [[k [E S]] Ho]. specialize (Ho ltac:(discriminate)). split; [|auto].
      exists 0%nat. split; [exact Ho|]. cbn. apply sublist_cons.
      etransitivity; [exact S|apply fmap_sublist, sublist_drop].
Qed.

Lemma pick_sub limit l : let '(o, p) := (pick limit OrderTxs (wrap64 0) l).1 in o ++ p `sublist_of` map w_hash l.
Proof.
  pose proof (pick_sublist limit OrderTxs (wrap64 0) l) as H. destruct (pick _ _ _ _) as [[o p] r]. cbn.
  destruct H as [(k & -> & S) _]. rewrite <- (take_drop k l) at 2. rewrite map_app. apply sublist_app; [reflexivity|exact S].
Qed.

(** ** fit is the longest prefix *)
Lemma fit_longest b l : exists k, fit b l = take k l /\ sum_cycles (take k l) <= b /\
  (k = length l \/ b < sum_cycles (take (S k) l)).
Proof.
  revert b. induction l as [|e l IH]; intros b.
  - exists 0%nat. cbn. split; [reflexivity|]. split; [lia|auto].
  - cbn [fit]. destruct (cycles e <=? b) eqn:E.
    + apply N.leb_le in E. destruct (IH (b - cycles e)) as (k & E1 & E2 & E3). exists (S k).
      rewrite E1. split; [reflexivity|]. cbn [take sum_cycles length]. split; [lia|].
      destruct E3 as [->|E3]; [left; reflexivity|right]. cbn in *. lia.
    + apply N.leb_gt in E. exists 0%nat. split; [reflexivity|]. cbn [take sum_cycles]. split; [lia|].
      right. cbn. rewrite take_0. cbn. lia.
Qed.

(** ** The invariant of reachable pools *)
Definition mp_inv (n : nat) (gap' : u64) (p : mempool) : Prop :=
  mp_size p = n /\ mp_gap p = gap' /\ tc_cap (mp_tc p) = (4 * n)%nat /\ inv (mp_tc p).

Definition entries (p : mempool) : list entry := map ent (live (mp_tc p)).
Definition dead (p : mempool) : nat := length (tc_incumbent (mp_tc p)) - length (live (mp_tc p)).

Lemma live_le c : (length (live c) <= length (tc_incumbent c))%nat.
Proof. apply filter_length. Qed.

Definition sim (n : nat) (gap' : u64) (p : mempool) (s : spool) : Prop :=
  mp_inv n gap' p /\ sp_txs s = entries p /\ sp_dead s = dead p /\ sp_pulled s = mp_cb p /\ sp_out s = mp_out p.

Lemma sim_has n g p s h : sim n g p s -> sp_has s h <-> tc_contain (mp_tc p) h = true.
Proof.
  intros (Hi & E & _). unfold sp_has, tc_contain. rewrite E. unfold entries. rewrite ent_hashes, bool_decide_eq_true.
  destruct Hi as (_ & _ & _ & Hi). pose proof (map_none _ Hi h) as M.
  destruct (tc_map (mp_tc p) !! h) as [w|] eqn:Em.
  - split; [intros _; eexists; reflexivity|]. intros _.
    destruct (decide (h ∈ map w_hash (live (mp_tc p)))) as [X|X]; [exact X|].
    apply M in X. discriminate.
  - split; [|intros [x Hx]; discriminate]. intros X. exfalso. apply M; auto.
Qed.

Lemma sim_len n g p s : sim n g p s -> length (sp_txs s) = tc_len (mp_tc p).
Proof. intros ((_ & _ & _ & Hi) & E & _). rewrite E, (len_live _ Hi). apply map_length. Qed.

Lemma inv_new n g : mp_inv n g (mp_new n g).
Proof.
  split; [reflexivity|]. split; [reflexivity|]. split; [cbn; lia|].
  constructor; cbn.
  - reflexivity.
  - constructor.
  - intros w X. inversion X.
  - intros i X. apply elem_of_empty in X. contradiction.
  - lia.
  - intros h w. rewrite lookup_empty. split; [discriminate|]. intros [X _]. inversion X.
Qed.

Lemma sim_new n g : sim n g (mp_new n g) sp_new.
Proof. split; [apply inv_new|]. repeat split. Qed.

(** One insertion into the cache. *)
Lemma sim_add n g p s t b : sim n g p s ->
  let '(r, c) := tc_insert (mp_tc p) t b in
  let '(r', s') := sp_add n s t b in
  r = r' /\ sim n g (mp_set_tc p c) s'.
Proof.
  intros Hs. destruct (tc_insert (mp_tc p) t b) as [r c] eqn:E.
  pose proof Hs as ((H1 & H2 & H3 & Hi) & E1 & E2 & E3 & E4).
  destruct (insert_spec _ _ _ _ _ Hi E) as (Hi' & Hc & Hr). unfold sp_add.
  assert (Hh : sp_has s (st_tx_hash t) <-> st_tx_hash t ∈ map w_hash (live (mp_tc p))).
  { unfold sp_has. rewrite E1. unfold entries. rewrite ent_hashes. reflexivity. }
  pose proof (live_le (mp_tc p)) as Hle.
  assert (Hlen : (length (sp_txs s) + sp_dead s)%nat = length (tc_incumbent (mp_tc p))).
  { rewrite E1, E2. unfold entries, dead. rewrite map_length. lia. }
  rewrite Hlen. destruct r as [[]|e|]; [| |contradiction].
  - destruct Hr as (Hn & Hl & [i Hi1] & Hi2).
    rewrite decide_False by tauto.
    replace (4 * n <=? length (tc_incumbent (mp_tc p)))%nat with false by (symmetry; apply Nat.leb_gt; lia).
    split; [reflexivity|]. split; [split; [exact H1|split; [exact H2|split; [rewrite <- H3; exact Hc|exact Hi']]]|].
    cbn [sp_txs sp_dead sp_pulled sp_out mp_tc mp_cb mp_out mp_set_tc]. unfold entries, dead.
    cbn [mp_tc mp_set_tc]. rewrite Hi1, map_app, E1, Hi2, app_length, E2. cbn [length map]. unfold dead.
    split; [reflexivity|]. split; [lia|]. auto.
  - destruct Hr as (L1 & L2 & L3 & [[-> Hd]|(-> & Hd & Hf)]).
    + rewrite decide_True by tauto. split; [reflexivity|].
      split; [split; [exact H1|split; [exact H2|split; [rewrite <- H3; exact Hc|exact Hi']]]|].
      unfold entries, dead. cbn [mp_tc mp_set_tc mp_cb mp_out]. rewrite L1, L2. auto.
    + rewrite decide_False by tauto.
      replace (4 * n <=? length (tc_incumbent (mp_tc p)))%nat with true by (symmetry; apply Nat.leb_le; lia).
      split; [reflexivity|].
      split; [split; [exact H1|split; [exact H2|split; [rewrite <- H3; exact Hc|exact Hi']]]|].
      unfold entries, dead. cbn [mp_tc mp_set_tc mp_cb mp_out]. rewrite L1, L2. auto.
Qed.

Lemma timeout_alive w cur g :
  is_timeout (w_tx w) cur (wrap64 (cur + g)) = false <-> alive cur g (ent w) = true.
Proof.
  unfold is_timeout, alive. cbn [ent fst]. change (u64v (wrap64 (cur + g))) with ((cur + g) mod two64).
  rewrite orb_false_iff, andb_true_iff, N.leb_gt, N.ltb_ge, N.ltb_lt, N.leb_le. reflexivity.
Qed.

Lemma keep_entries l cur g :
  map ent (filter (fun w => is_timeout (w_tx w) cur (wrap64 (cur + g)) = false) l)
  = filter (fun e => alive cur g e = true) (map ent l).
Proof.
  induction l as [|w l IH]; [reflexivity|]. cbn [map]. rewrite !filter_cons.
  destruct (decide (is_timeout (w_tx w) cur (wrap64 (cur + g)) = false)) as [H|H].
  - rewrite decide_True by (apply timeout_alive; exact H). cbn [map]. rewrite IH. reflexivity.
  - rewrite decide_False by (intros X; apply H, timeout_alive; exact X). exact IH.
Qed.

Lemma find_entry c h : inv c ->
  match find (fun e => bool_decide (e_hash e = h)) (map ent (live c)) with Some e => Some e.1 | None => None end
  = tc_get c h.
Proof.
  intros Hi. unfold tc_get. destruct (find _ _) as [e|] eqn:F.
  - apply find_some in F as [Hin He]. apply bool_decide_eq_true in He. apply elem_of_list_In in Hin.
    apply elem_of_list_fmap in Hin as (w & -> & Hw). cbn.
    assert (X : tc_map c !! h = Some w) by (apply (inv_map c Hi); auto). rewrite X. reflexivity.
  - destruct (tc_map c !! h) as [w|] eqn:E; [|reflexivity]. exfalso.
    apply (inv_map c Hi) in E as [Hw Hh].
    assert (X := find_none _ _ F (ent w)). cbv beta in X.
    rewrite bool_decide_eq_false in X. apply X; [|exact Hh].
    apply elem_of_list_In, elem_of_list_fmap. eauto.
Qed.

Lemma find_app_none {A} (f : A -> bool) (l : list A) : find f l = None -> forall x, x ∈ l -> f x = false.
Proof. intros F x Hx. apply (find_none _ _ F). apply elem_of_list_In. exact Hx. Qed.

Section Steps.
  Context (digest : bytes -> hash) (verify : bytes -> bytes -> bytes -> bool).
  Context (n : nat) (gap gap' : u64).
  Notation mstep := (mp_step digest verify gap).
  Notation sstep := (sp_step digest verify n gap gap').

  Lemma sim_unknown p s hs : sim n gap' p s ->
    tc_show_unknown (mp_tc p) hs = filter (fun h => ~ sp_has s h) hs.
  Proof.
    intros Hs. unfold tc_show_unknown. apply filter_ext_in. intros h _.
    rewrite (sim_has _ _ _ _ h Hs). destruct (tc_contain (mp_tc p) h); split; intros; congruence.
  Qed.

  Lemma sim_find p s h : sim n gap' p s -> sp_find s h = mp_lookup p h.
  Proof.
    intros ((_ & _ & _ & Hi) & E1 & _ & E3 & _). unfold sp_find, mp_lookup. rewrite E1, E3.
    unfold entries. rewrite <- (find_entry _ h Hi). destruct (find _ _); reflexivity.
  Qed.

  Lemma sim_adds txs b p s : sim n gap' p s ->
    sim n gap' (mp_set_tc p (fold_left (fun c t => snd (tc_insert c t b)) txs (mp_tc p)))
      (fold_left (fun s t => snd (sp_add n s t b)) txs s).
  Proof.
    revert p s. induction txs as [|t txs IH]; intros p s Hs.
    - destruct p. exact Hs.
    - cbn [fold_left]. pose proof (sim_add _ _ _ _ t b Hs) as Ha.
      destruct (tc_insert (mp_tc p) t b) as [r c], (sp_add n s t b) as [r' s']. destruct Ha as [_ Ha].
      apply IH in Ha. exact Ha.
  Qed.

  Lemma sim_insert p s net t e b : sim n gap' p s ->
    (mstep p (OpInsert net t e b)).1 = (sstep s (OpInsert net t e b)).1 /\
    sim n gap' (mstep p (OpInsert net t e b)).2 (sstep s (OpInsert net t e b)).2.
  Proof.
    intros Hs. cbn [mp_step sp_step]. unfold mp_insert, insert_checks, check_reach_limit, check_exist.
    assert (Hn : mp_size p = n) by apply Hs. rewrite Hn, (sim_len _ _ _ _ Hs).
    destruct (n <=? tc_len (mp_tc p))%nat; [split; [reflexivity|exact Hs]|]. cbn [rbind].
    pose proof (sim_has _ _ _ _ (st_tx_hash t) Hs) as Hh.
    destruct (tc_contain (mp_tc p) (st_tx_hash t)).
    { rewrite decide_True by (apply Hh; reflexivity). split; [reflexivity|exact Hs]. }
    rewrite decide_False by (intros X; apply Hh in X; discriminate). cbn [rbind].
    destruct (check_signature verify t) as [[]|x|]; [|split; [reflexivity|exact Hs]|split; [reflexivity|exact Hs]].
    cbn [rbind]. destruct (check_transaction digest gap e t) as [[]|x|];
      [|split; [reflexivity|exact Hs]|split; [reflexivity|exact Hs]].
    cbn [rbind]. destruct (check_storage_exist e (st_tx_hash t)) as [[]|x|];
      [|split; [reflexivity|exact Hs]|split; [reflexivity|exact Hs]].
    pose proof (sim_add _ _ _ _ t false Hs) as Ha.
    destruct (tc_insert (mp_tc p) t false) as [r c], (sp_add n s t false) as [r' s']. destruct Ha as [<- Ha].
    destruct r as [[]|x|]; [|split; [reflexivity|exact Ha]|split; [reflexivity|exact Ha]].
    destruct net; [split; [reflexivity|exact Ha]|]. split; [reflexivity|].
    destruct Ha as ((B1 & B2 & B3 & B4) & A2 & A3 & A4 & A5).
    split; [split; [reflexivity|split; [exact B2|split; [exact B3|exact B4]]]|].
    split; [exact A2|]. split; [exact A3|]. split; [exact A4|]. cbn in *. rewrite A5. reflexivity.
  Qed.

  Lemma sim_flush p s hs : sim n gap' p s ->
    (mstep p (OpFlush hs)).1 = (sstep s (OpFlush hs)).1 /\
    sim n gap' (mstep p (OpFlush hs)).2 (sstep s (OpFlush hs)).2.
  Proof.
    intros ((H1 & H2 & H3 & Hi) & E1 & E2 & E3 & E4). split; [reflexivity|]. cbn [mp_step sp_step snd].
    destruct (flush_spec _ hs Hi) as (F1 & F2 & F3 & F4).
    assert (El : filter (fun e => e_hash e ∉ hs) (sp_txs s) = map ent (live (tc_flush (mp_tc p) hs))).
    { rewrite F4, E1. unfold entries. clear. induction (live (mp_tc p)) as [|w l IH]; [reflexivity|].
      cbn [map]. rewrite !filter_cons. rewrite ent_hash. destruct (decide (w_hash w ∉ hs)); cbn [map]; rewrite IH; reflexivity. }
    rewrite El. split; [split; [exact H1|split; [exact H2|split; [rewrite <- H3; exact F2|exact F1]]]|].
    split; [reflexivity|]. split; [|split; [reflexivity|exact E4]]. unfold mp_flush, dead. cbn [mp_tc sp_dead].
    rewrite E2, E1. unfold dead, entries. rewrite !map_length, F3. pose proof (live_le (mp_tc p)).
    assert (length (live (tc_flush (mp_tc p) hs)) <= length (live (mp_tc p)))%nat by (rewrite F4; apply filter_length).
    lia.
  Qed.

  Lemma sim_ensure p s hs pull : sim n gap' p s ->
    (mstep p (OpEnsure hs pull)).1 = (sstep s (OpEnsure hs pull)).1 /\
    sim n gap' (mstep p (OpEnsure hs pull)).2 (sstep s (OpEnsure hs pull)).2.
  Proof.
    intros Hs. cbn [mp_step sp_step]. unfold mp_ensure_order_txs. rewrite <- (sim_unknown p s hs Hs).
    destruct (tc_show_unknown (mp_tc p) hs) as [|h l]; [split; [reflexivity|exact Hs]|].
    rewrite decide_False by discriminate. destruct (pull (h :: l)) as [txs|x|]; [|split; [reflexivity|exact Hs]..].
    destruct (decide _); [|split; [reflexivity|exact Hs]]. split; [reflexivity|].
    destruct Hs as (A1 & A2 & A3 & A4 & A5). split; [exact A1|]. cbn in *. rewrite A4. auto.
  Qed.

  Lemma sim_sync p s hs pull : sim n gap' p s ->
    (mstep p (OpSync hs pull)).1 = (sstep s (OpSync hs pull)).1 /\
    sim n gap' (mstep p (OpSync hs pull)).2 (sstep s (OpSync hs pull)).2.
  Proof.
    intros Hs. cbn [mp_step sp_step]. unfold mp_sync_propose_txs. rewrite <- (sim_unknown p s hs Hs).
    destruct (tc_show_unknown (mp_tc p) hs) as [|h l]; [split; [reflexivity|exact Hs]|].
    rewrite decide_False by discriminate. destruct (pull (h :: l)) as [txs|x|]; [|split; [reflexivity|exact Hs]..].
    split; [reflexivity|]. apply sim_adds. exact Hs.
  Qed.

  Lemma sim_get p s hs : sim n gap' p s ->
    (mstep p (OpGetFull hs)).1 = (sstep s (OpGetFull hs)).1 /\
    sim n gap' (mstep p (OpGetFull hs)).2 (sstep s (OpGetFull hs)).2.
  Proof.
    intros Hs. split; [|exact Hs]. cbn [mp_step sp_step fst]. unfold mp_get_full_txs.
    replace (omap (sp_find s) hs) with (omap (mp_lookup p) hs); [reflexivity|].
    induction hs as [|h hs IH]; [reflexivity|]. cbn. rewrite (sim_find _ _ h Hs). rewrite IH. reflexivity.
  Qed.

  (** What [package] does, without any bound. *)
  Lemma package_inv p limit e : mp_inv n gap' p ->
    mp_inv n gap' (mp_package p limit e).2 /\ mp_cb (mp_package p limit e).2 = mp_cb p /\
    mp_out (mp_package p limit e).2 = mp_out p /\
    match en_latest e with
    | Ok (_, epoch) =>
        let l := filter (fun w => is_timeout (w_tx w) epoch (wrap64 (epoch + gap')) = false) (live (mp_tc p)) in
        (mp_package p limit e).1 = Ok (pick limit OrderTxs (wrap64 0) l).1 /\
        entries (mp_package p limit e).2 = filter (fun e => alive epoch gap' e = true) (entries p) /\
        entries (mp_package p limit e).2 = map ent l /\
        dead (mp_package p limit e).2 = 0%nat
    | Err x => (mp_package p limit e).1 = Err x /\ (mp_package p limit e).2 = p
    | Panic => (mp_package p limit e).1 = Panic /\ (mp_package p limit e).2 = p
    end.
  Proof.
    intros (H1 & H2 & H3 & Hi). unfold mp_package. destruct (en_latest e) as [[ch epoch]|x|].
    - destruct (package_spec _ limit epoch (wrap64 (epoch + mp_gap p)) Hi) as (c' & E & P1 & P2 & P3 & P4).
      rewrite E, H2 in *. cbn [fst snd]. split; [|split; [reflexivity|split; [reflexivity|]]].
      + split; [exact H1|]. split; [exact H2|]. split; [rewrite <- H3; exact P2|exact P1].
      + split; [reflexivity|]. unfold entries, dead. cbn [mp_tc mp_set_tc]. rewrite P4, P3.
        split; [apply keep_entries|]. split; [reflexivity|lia].
    - cbn. split; [split; auto|]. auto.
    - cbn. split; [split; auto|]. auto.
  Qed.

  Lemma sim_package p s (limit : u64) e : sim n gap' p s -> small limit -> Forall (fun x => small_tx x.1) (sp_txs s) ->
    (mstep p (OpPackage limit e)).1 = (sstep s (OpPackage limit e)).1 /\
    sim n gap' (mstep p (OpPackage limit e)).2 (sstep s (OpPackage limit e)).2.
  Proof.
    intros Hs Hl Hsm. pose proof Hs as (Hi & E1 & E2 & E3 & E4).
    pose proof (package_inv p limit e Hi) as (P1 & P2 & P3 & P4). cbn [mp_step sp_step].
    destruct (mp_package p limit e) as [r p'] eqn:Ep. cbn [fst snd] in *.
    destruct (en_latest e) as [[ch epoch]|x|].
    - destruct P4 as (-> & Q1 & Q2 & Q3). cbn [fst snd]. rewrite E1, <- Q1. split.
      + f_equal. f_equal. rewrite pick_spec; [rewrite <- Q2; reflexivity|exact Hl|].
        apply Forall_forall. intros w Hw. apply elem_of_list_filter in Hw as [_ Hw].
        rewrite Forall_forall in Hsm. apply (Hsm (ent w)). rewrite E1. apply elem_of_list_fmap. eauto.
      + split; [exact P1|]. cbn. rewrite Q3, P2, P3. auto.
    - destruct P4 as [-> ->]. split; [reflexivity|exact Hs].
    - destruct P4 as [-> ->]. split; [reflexivity|exact Hs].
  Qed.

  Lemma sp_add_small s t b : small_tx t -> Forall (fun x => small_tx x.1) (sp_txs s) ->
    Forall (fun x => small_tx x.1) (sp_txs (sp_add n s t b).2).
  Proof.
    intros Ht Hs. unfold sp_add. destruct (decide _); [exact Hs|]. destruct (_ <=? _)%nat; [exact Hs|].
    cbn. apply Forall_app. split; [exact Hs|]. constructor; [exact Ht|constructor].
  Qed.

  Lemma sp_small_step s o : small_op o -> Forall (fun x => small_tx x.1) (sp_txs s) ->
    Forall (fun x => small_tx x.1) (sp_txs (sstep s o).2).
  Proof.
    destruct o as [net t e b|limit e|hs|hs pull|hs pull|hs]; cbn [small_op sp_step]; intros Ho Hs.
    - destruct (_ <=? _)%nat; [exact Hs|]. destruct (decide _); [exact Hs|].
      destruct (rbind _ _) as [[]|x|]; [|exact Hs|exact Hs].
      pose proof (sp_add_small s t false Ho Hs) as X. destruct (sp_add n s t false) as [[[]|x|] s']; [|exact X|exact X].
      destruct net; exact X.
    - destruct (en_latest e) as [[ch ep]|x|]; [|exact Hs|exact Hs]. cbn. apply Forall_forall. intros x Hx.
      apply elem_of_list_filter in Hx as [_ Hx]. rewrite Forall_forall in Hs. apply Hs. exact Hx.
    - cbn. apply Forall_forall. intros x Hx.
      apply elem_of_list_filter in Hx as [_ Hx]. rewrite Forall_forall in Hs. apply Hs. exact Hx.
    - destruct (decide _); [exact Hs|]. destruct (pull _) as [txs|x|]; [|exact Hs|exact Hs].
      destruct (decide _); exact Hs.
    - destruct (decide _); [exact Hs|]. destruct (pull _) as [txs|x|] eqn:E; [|exact Hs|exact Hs].
      cbn. specialize (Ho _ _ E). clear E n0. revert s Hs. induction Ho as [|t txs Ht Htx IH]; intros s Hs; [exact Hs|].
      cbn. apply IH. apply sp_add_small; assumption.
    - exact Hs.
  Qed.

  Lemma sim_step p s o : sim n gap' p s -> small_op o -> Forall (fun x => small_tx x.1) (sp_txs s) ->
    (mstep p o).1 = (sstep s o).1 /\ sim n gap' (mstep p o).2 (sstep s o).2.
  Proof.
    intros Hs Ho Hsm. destruct o; [apply sim_insert|apply sim_package|apply sim_flush|apply sim_ensure|apply sim_sync|apply sim_get];
      assumption.
  Qed.

  Lemma refine_from p s l : sim n gap' p s -> Forall small_op l -> Forall (fun x => small_tx x.1) (sp_txs s) ->
    (mp_run digest verify gap p l).1 = (sp_run digest verify n gap gap' s l).1 /\
    sim n gap' (mp_run digest verify gap p l).2 (sp_run digest verify n gap gap' s l).2.
  Proof.
    intros Hs Hl. revert p s Hs. induction Hl as [|o l Ho Hl IH]; intros p s Hs Hsm; [split; [reflexivity|exact Hs]|].
    cbn [mp_run sp_run]. pose proof (sim_step _ _ _ Hs Ho Hsm) as [A1 A2]. pose proof (sp_small_step _ _ Ho Hsm) as A3.
    destruct (mstep p o) as [r p1], (sstep s o) as [r' s1]. cbn [fst snd] in *. subst r'.
    specialize (IH _ _ A2 A3). destruct (mp_run _ _ _ p1 l) as [rs p2], (sp_run _ _ _ _ _ s1 l) as [rs' s2].
    cbn [fst snd] in *. destruct IH as [-> IH]. split; [reflexivity|exact IH].
  Qed.

  (** Every pool in the program satisfies the invariant. *)
  Definition mirror (p : mempool) : spool := MkSpool (entries p) (dead p) (mp_cb p) (mp_out p).
  Lemma mirror_sim p : mp_inv n gap' p -> sim n gap' p (mirror p).
  Proof. intros H. split; [exact H|]. auto. Qed.

  Lemma inv_step p o : mp_inv n gap' p -> mp_inv n gap' (mstep p o).2.
  Proof.
    intros Hi. pose proof (mirror_sim p Hi) as Hs. destruct o.
    - apply (sim_insert _ _ net t e b Hs).
    - cbn [mp_step]. pose proof (package_inv p limit e Hi) as (P & _). destruct (mp_package p limit e). exact P.
    - apply (sim_flush _ _ hs Hs).
    - apply (sim_ensure _ _ hs pull Hs).
    - apply (sim_sync _ _ hs pull Hs).
    - exact Hi.
  Qed.
  Lemma inv_run p l : mp_inv n gap' p -> mp_inv n gap' (mp_run digest verify gap p l).2.
  Proof.
    revert p. induction l as [|o l IH]; intros p Hi; [exact Hi|]. cbn [mp_run].
    pose proof (inv_step p o Hi) as H1. destruct (mstep p o) as [r p1]. cbn in H1. specialize (IH _ H1).
    destruct (mp_run _ _ _ p1 l). exact IH.
  Qed.
End Steps.
