(** * With no other thread running, the step machine computes the functions of
    Mempool.v. *)
From Verif Require Import Base BaseFacts Hex Types Rlp FixedCodec Mempool MempoolFacts MempoolMore MempoolConc MempoolConcFacts
  MempoolConcProps MempoolConcMore.
Local Open Scope nat_scope.

Definition to_tc (c : cst) : tx_cache :=
  MkTC (c_cap c) (c_q0 c) (c_q1 c) (c_map c) (c_zero c) (c_removed c) (length (c_ins c)).

(** same picks *)
Definition same_pk (s t : pk) : Prop :=
  pk_order s = pk_order t /\ pk_propose s = pk_propose t /\ pk_timeout s = pk_timeout t /\
  pk_cycles s = pk_cycles t /\ pk_stage s = pk_stage t.

Lemma c_pick_visit cap limit cur tmo removed w s t t' : same_pk s t -> w_id w ∉ removed -> is_timeout (w_tx w) cur tmo = false ->
  (cap <=? length (pk_cand t)) = false -> pk_visit cap limit cur tmo removed w t = Ok t' ->
  same_pk (c_pick limit w s) t' /\ pk_cand t' = pk_cand t ++ [w].
Proof.
  intros (E1 & E2 & E3 & E4 & E5) Hr Ht Hf. unfold pk_visit. rewrite decide_False by exact Hr. rewrite Ht, Hf. cbn zeta.
  unfold c_pick. cbn zeta. cbn [pk_stage pk_order pk_propose pk_timeout pk_cycles pk_cand]. rewrite E5, E4.
  destruct (match pk_stage t with OrderTxs => false | ProposeTxs => w_proposed w | Finished => true end) eqn:Ek.
  { intros [= <-]. unfold same_pk. cbn. rewrite ?E1, ?E2, ?E3, ?E4, ?E5. auto 10. }
  destruct (pk_stage t) eqn:Es; try discriminate Ek;
    destruct (limit <? wrap64 (pk_cycles t + tx_cycle (w_tx w)))%N; cbn [rbind stage_next]; intros [= <-];
    unfold same_pk; cbn; rewrite E1, E2, E3, ?E4; auto 10.
Qed.

Lemma repeat_run c n l : c_run c (repeat l (S n)) = c_run (c_step c l) (repeat l n).
Proof. reflexivity. Qed.
Lemma repeat_run_app c n m l : c_run c (repeat l (n + m)) = c_run (c_run c (repeat l n)) (repeat l m).
Proof. rewrite repeat_app. apply run_app. Qed.

Definition LP0 : label := LPkg 0.

(** The loop *)
Lemma seq_loop a q : forall c s t, c_pkg c = PLoop a (c_zero c) s -> same_pk s t -> c_queue c (c_zero c) = q ->
  c_queue c (negb (c_zero c)) = pk_cand t ->
  forall t' rest cand, pk_loop (c_cap c) (pa_limit a) (pa_cur a) (pa_tmo a) (c_removed c) q t = (Ok t', rest, cand) ->
  exists n s', let c' := c_run c (repeat LP0 n) in
    c_pkg c' = PSwitch (c_zero c) s' /\ same_pk s' t' /\ c_queue c' (c_zero c) = [] /\ c_queue c' (negb (c_zero c)) = pk_cand t' /\    rest = [] /\ cand = pk_cand t' /\ c_zero c' = c_zero c /\ c_map c' = c_map c /\ c_removed c' = c_removed c /\    c_cap c' = c_cap c /\ c_ins c' = c_ins c /\ c_count c' = c_count c /\ c_results c' = c_results c.
Proof.
  induction q as [|w q IH]; intros c s t Hp Hs Hq Hc t' rest cand Hl; cbn [pk_loop] in Hl.
  - injection Hl as <- <- <-. exists 1, s. cbn [repeat c_run fold_left LP0 c_step]. unfold pkg_step. rewrite Hp, Hq. cbn.
    change (c_queue (c_set_pkg ?a ?b) ?y) with (c_queue a y). auto 20.
  - destruct (pk_visit (c_cap c) (pa_limit a) (pa_cur a) (pa_tmo a) (c_removed c) w t) as [t1|e|] eqn:Ev; try discriminate Hl.
    set (c1 := pkg_step c 0).
    assert (E1 : c1 = c_set_pkg (c_set_queue c (c_zero c) q) (PPopped a (c_zero c) s w)) by (unfold c1, pkg_step; rewrite Hp, Hq; reflexivity).
    assert (Q1 : c_queue c1 (c_zero c) = q) by (rewrite E1; change (c_queue (c_set_pkg ?a ?b) ?y) with (c_queue a y); apply queue_set_same).
    assert (Q2 : c_queue c1 (negb (c_zero c)) = pk_cand t)
      by (rewrite E1; change (c_queue (c_set_pkg ?a ?b) ?y) with (c_queue a y); rewrite queue_set_other; exact Hc).
    (* the skipped wrapper leads straight back to the loop *)
    assert (Hskip : forall s1, same_pk s1 t1 -> pk_cand t1 = pk_cand t -> pkg_step c1 0 = c_set_pkg (c_add_gone c1 w) (PLoop a (c_zero c) s1) ->
      exists n s', let c' := c_run c (repeat LP0 n) in
        c_pkg c' = PSwitch (c_zero c) s' /\ same_pk s' t' /\ c_queue c' (c_zero c) = [] /\ c_queue c' (negb (c_zero c)) = pk_cand t' /\
        rest = [] /\ cand = pk_cand t' /\ c_zero c' = c_zero c /\ c_map c' = c_map c /\ c_removed c' = c_removed c /\
        c_cap c' = c_cap c /\ c_ins c' = c_ins c /\ c_count c' = c_count c /\ c_results c' = c_results c).
    { intros s1 S1 C1 E2. set (c2 := pkg_step c1 0) in *.
      assert (Hz : c_zero c2 = c_zero c) by (rewrite E2, E1; reflexivity).
      assert (Hm : c_map c2 = c_map c) by (rewrite E2, E1; reflexivity).
      assert (Hr : c_removed c2 = c_removed c) by (rewrite E2, E1; reflexivity).
      assert (Hcap : c_cap c2 = c_cap c) by (rewrite E2, E1; reflexivity).
      assert (Hi : c_ins c2 = c_ins c) by (rewrite E2, E1; reflexivity).
      assert (Hn : c_count c2 = c_count c) by (rewrite E2, E1; reflexivity).
      assert (Hrs : c_results c2 = c_results c) by (rewrite E2, E1; reflexivity).
      assert (Hq2 : forall y, c_queue c2 y = c_queue c1 y) by (intros y; rewrite E2; reflexivity).
      destruct (IH c2 s1 t1) with (t' := t') (rest := rest) (cand := cand) as (n & s' & X).
      - rewrite Hz, E2. reflexivity.
      - exact S1.
      - rewrite Hz, Hq2. exact Q1.
      - rewrite Hz, Hq2, C1. exact Q2.
      - rewrite Hcap, Hr. exact Hl.
      - exists (S (S n)), s'. rewrite !repeat_run. fold LP0. change (c_step c LP0) with c1. change (c_step c1 LP0) with c2.
        cbn zeta in X |- *. rewrite Hz, Hm, Hr, Hcap, Hi, Hn, Hrs in X. exact X. }
    destruct (decide (w_id w ∈ c_removed c)) as [Hin|Hout].
    { unfold pk_visit in Ev. rewrite decide_True in Ev by exact Hin. injection Ev as <-. apply (Hskip s Hs eq_refl).
      rewrite E1 at 1. unfold pkg_step. cbn [c_set_pkg c_pkg c_set_queue c_removed]. rewrite decide_True by exact Hin. rewrite E1. reflexivity. }
    destruct (is_timeout (w_tx w) (pa_cur a) (pa_tmo a)) eqn:Et.
    { unfold pk_visit in Ev. rewrite decide_False in Ev by exact Hout. rewrite Et in Ev. injection Ev as <-.
      apply (Hskip (MkPk (pk_order s) (pk_propose s) (pk_timeout s ++ [w_hash w]) (pk_cycles s) (pk_stage s) (pk_cand s))); [|reflexivity|].
      - destruct Hs as (S1 & S2 & S3 & S4 & S5). unfold same_pk. cbn. rewrite S1, S2, S3, S4, S5. auto.
      - rewrite E1 at 1. unfold pkg_step. cbn [c_set_pkg c_pkg c_set_queue c_removed]. rewrite decide_False by exact Hout.
        rewrite Et, E1. reflexivity. }
    destruct (c_cap c <=? length (pk_cand t)) eqn:Ef.
    { unfold pk_visit in Ev. rewrite decide_False in Ev by exact Hout. rewrite Et, Ef in Ev. discriminate Ev. }
    destruct (c_pick_visit _ _ _ _ _ _ _ _ _ Hs Hout Et Ef Ev) as [S1 C1].
    set (c2 := pkg_step c1 0).
    assert (E2 : c2 = c_set_pkg c1 (PPush a (c_zero c) s w)).
    { unfold c2. rewrite E1 at 1. unfold pkg_step. cbn [c_set_pkg c_pkg c_set_queue c_removed]. rewrite decide_False by exact Hout.
      rewrite Et, E1. reflexivity. }
    set (c3 := pkg_step c2 0).
    assert (E3 : c3 = c_set_pkg (c_set_queue c1 (negb (c_zero c)) (c_queue c1 (negb (c_zero c)) ++ [w])) (PLoop a (c_zero c) (c_pick (pa_limit a) w s))).
    { unfold c3. rewrite E2. unfold pkg_step. cbn [c_set_pkg c_pkg]. unfold c_full. cbn [c_set_pkg c_cap].
      change (c_queue (c_set_pkg ?a ?b) ?y) with (c_queue a y). rewrite Q2.
      replace (c_cap c1) with (c_cap c) by (rewrite E1; reflexivity). rewrite Ef. reflexivity. }
    assert (Hz : c_zero c3 = c_zero c) by (rewrite E3, E1; reflexivity).
    assert (Hm : c_map c3 = c_map c) by (rewrite E3, E1; reflexivity).
    assert (Hr : c_removed c3 = c_removed c) by (rewrite E3, E1; reflexivity).
    assert (Hcap : c_cap c3 = c_cap c) by (rewrite E3, E1; reflexivity).
    assert (Hi : c_ins c3 = c_ins c) by (rewrite E3, E1; reflexivity).
    assert (Hn : c_count c3 = c_count c) by (rewrite E3, E1; reflexivity).
    assert (Hrs : c_results c3 = c_results c) by (rewrite E3, E1; reflexivity).
    destruct (IH c3 (c_pick (pa_limit a) w s) t1) with (t' := t') (rest := rest) (cand := cand) as (n & s' & X).
    + rewrite Hz, E3. reflexivity.
    + exact S1.
    + rewrite Hz, E3. change (c_queue (c_set_pkg ?a ?b) ?y) with (c_queue a y). rewrite negb_set. exact Q1.
    + rewrite Hz, E3. change (c_queue (c_set_pkg ?a ?b) ?y) with (c_queue a y). rewrite queue_set_same, Q2, C1. reflexivity.
    + rewrite Hcap, Hr. exact Hl.
    + exists (S (S (S n))), s'. rewrite !repeat_run. change (c_step c LP0) with c1. change (c_step c1 LP0) with c2. change (c_step c2 LP0) with c3.
      cbn zeta in X |- *. rewrite Hz, Hm, Hr, Hcap, Hi, Hn, Hrs in X. exact X.
Qed.

Lemma seq_delete rest : forall c s, c_pkg c = PDelete s rest ->
  c_run c (repeat LP0 (S (length rest))) =
  c_set_pkg (c_add_result (c_set_map c (map_deletes (c_map c) rest)) (pk_order s, pk_propose s)) PIdle.
Proof.
  induction rest as [|h rest IH]; intros c s Hp.
  - cbn. unfold pkg_step. rewrite Hp. destruct c; reflexivity.
  - rewrite repeat_run. change (c_step c LP0) with (pkg_step c 0). unfold pkg_step. rewrite Hp. cbn [lookup list_lookup take drop app].
    rewrite drop_0. cbn [length]. rewrite (IH _ s) by reflexivity. destruct c; reflexivity.
Qed.

Theorem package_alone c limit cur tmo r tc' :
  c_pkg c = PIdle -> c_count c = 0 -> tc_package (to_tc c) limit cur tmo = (Ok r, tc') ->
  exists n, let c' := c_run c (LPackage limit cur tmo :: repeat LP0 n) in
    c_pkg c' = PIdle /\ to_tc c' = tc' /\ c_results c' = c_results c ++ [r].
Proof.
  intros Hp Hn Ht. unfold tc_package in Ht.
  set (a := MkArgs limit cur tmo). set (c0 := c_set_pkg c (PLoop a (c_zero c) pk_new)).
  set (t0 := MkPk [] [] [] (wrap64 0) OrderTxs (tc_candidate (to_tc c))) in Ht.
  destruct (pk_loop _ _ _ _ _ _ t0) as [[[t'|e|] rest] cand] eqn:El; try discriminate Ht.
  destruct (seq_loop a (c_queue c0 (c_zero c)) c0 pk_new t0) with (t' := t') (rest := rest) (cand := cand)
    as (n & s' & X1 & X2 & X3 & X4 & -> & -> & X5 & X6 & X7 & X8 & X9 & X10 & X11).
  - reflexivity.
  - unfold same_pk. cbn. auto.
  - reflexivity.
  - unfold c0, t0. cbn. unfold tc_candidate. cbn. destruct (c_zero c); reflexivity.
  - exact El.
  - set (c1 := c_run c0 (repeat LP0 n)) in *.
    change (c_zero c0) with (c_zero c) in *. change (c_map c0) with (c_map c) in *. change (c_removed c0) with (c_removed c) in *.
    change (c_cap c0) with (c_cap c) in *. change (c_ins c0) with (c_ins c) in *. change (c_count c0) with (c_count c) in *.
    change (c_results c0) with (c_results c) in *.
    destruct X2 as (S1 & S2 & S3 & _ & _).
    set (c4 := c_set_pkg (c_set_zero c1 (negb (c_zero c1))) (PDelete s' (pk_timeout s'))).
    assert (E4 : c_run c1 (repeat LP0 3) = c4).
    { change (c_run c1 (repeat LP0 3)) with (pkg_step (pkg_step (pkg_step c1 0) 0) 0).
      assert (A1 : pkg_step c1 0 = c_set_pkg (c_set_zero c1 (negb (c_zero c1))) (PWait s')) by (unfold pkg_step; rewrite X1; reflexivity).
      rewrite A1. set (d := c_set_pkg (c_set_zero c1 (negb (c_zero c1))) (PWait s')).
      assert (A2 : pkg_step d 0 = c_set_pkg d (PDrain s')).
      { unfold pkg_step. cbn [d c_pkg c_set_pkg]. rewrite decide_True; [reflexivity|]. cbn. rewrite X10. exact Hn. }
      rewrite A2. unfold pkg_step. cbn [c_pkg c_set_pkg].
      replace (c_queue (c_set_pkg d (PDrain s')) (negb (c_zero (c_set_pkg d (PDrain s'))))) with ([] : list wrapper); [reflexivity|].
      cbn. rewrite negb_involutive, X5, <- X3. reflexivity. }
    pose proof (seq_delete (pk_timeout s') c4 s' eq_refl) as E5.
    exists (n + (3 + S (length (pk_timeout s')))). cbn zeta.
    change (c_run c (LPackage limit cur tmo :: ?l)) with (c_run (c_step c (LPackage limit cur tmo)) l).
    cbn [c_step]. rewrite Hp. fold a. fold c0. rewrite !repeat_run_app. fold c1. rewrite E4, E5.
    split; [reflexivity|].
    injection Ht as <- <-. split.
    + unfold to_tc. cbn. rewrite X8, X6, X7, X9, S3, X5.
      unfold c_queue in X3, X4. destruct (c_zero c); cbn in X3, X4; rewrite X3, X4; reflexivity.
    + cbn. rewrite X11, S1, S2. reflexivity.
Qed.


(** An insertion call run on its own *)
Lemma last_lookup {A} (l : list A) x : (l ++ [x]) !! length l = Some x.
Proof. rewrite lookup_app_r by lia. rewrite Nat.sub_diag. reflexivity. Qed.
Lemma last_set {A} (l : list A) x y : <[length l := y]> (l ++ [x]) = l ++ [y].
Proof. rewrite insert_app_r_alt by lia. rewrite Nat.sub_diag. reflexivity. Qed.

Theorem insert_alone c t b :
  let '(r, tc') := tc_insert (to_tc c) t b in
  let i := length (c_ins c) in
  let c' := c_run c (LSpawn t b :: repeat (LIns i) 7) in
  outcome c' i = Some r /\ c_pkg c' = c_pkg c /\ c_count c' = c_count c /\ c_map c' = tc_map tc' /\
  c_q0 c' = tc_q0 tc' /\ c_q1 c' = tc_q1 tc' /\ c_zero c' = tc_zero tc' /\ c_removed c' = tc_removed tc'.
Proof.
  set (i := length (c_ins c)). set (w := MkW i t b).
  assert (Hstep : forall d st, c_ins d = c_ins c ++ [(w, st)] ->
    ins_step d i = match st with
      | IStart => match c_map d !! w_hash w with
                  | Some _ => c_set_ins d (c_ins c ++ [(w, IDone (Err (MDup (w_hash w))))])
                  | None => c_set_ins (c_set_map d (<[w_hash w := w]> (c_map d))) (c_ins c ++ [(w, IMapped)]) end
      | IMapped => c_set_ins (c_set_count d (S (c_count d))) (c_ins c ++ [(w, ICounted)])
      | ICounted => c_set_ins d (c_ins c ++ [(w, IRole (c_zero d))])
      | IRole z => if c_full d z then c_set_ins d (c_ins c ++ [(w, IPushed false)])
                   else c_set_ins (c_set_queue d z (c_queue d z ++ [w])) (c_ins c ++ [(w, IPushed true)])
      | IPushed ok => c_set_ins (c_set_count d (pred (c_count d))) (c_ins c ++ [(w, IUncounted ok)])
      | IUncounted true => c_set_ins d (c_ins c ++ [(w, IDone (Ok tt))])
      | IUncounted false => c_set_ins (c_set_map d (delete (w_hash w) (c_map d))) (c_ins c ++ [(w, IDone (Err (MInsert (w_hash w))))])
      | IDone _ => d
      end).
  { intros d st E. unfold ins_step. rewrite E. unfold i. rewrite last_lookup. cbv beta zeta. rewrite !last_set.
    destruct st as [| | |z|ok|[]|r]; cbn [c_ins c_set_map c_set_count c_set_queue]; rewrite ?E, ?last_set; reflexivity. }
  unfold tc_insert. cbn [to_tc tc_map tc_next tc_cap]. change (st_tx_hash t) with (w_hash w). fold i. fold w.
  set (c0 := c_set_ins c (c_ins c ++ [(w, IStart)])).
  Ltac stepi Hstep i st := match goal with |- context [ins_step (c_set_ins ?d ?l) i] => rewrite (Hstep (c_set_ins d l) st eq_refl) end.
  change (c_run c (LSpawn t b :: repeat (LIns i) 7))
    with (ins_step (ins_step (ins_step (ins_step (ins_step (ins_step (ins_step c0 i) i) i) i) i) i) i).
  rewrite (Hstep c0 IStart eq_refl). change (c_map c0) with (c_map c).
  destruct (c_map c !! w_hash w) as [v|].
  - do 6 stepi Hstep i (IDone (Err (MDup (w_hash w)))). cbn. unfold outcome. cbn. unfold i. rewrite last_lookup. auto 10.
  - stepi Hstep i IMapped. stepi Hstep i ICounted. stepi Hstep i (IRole (c_zero c)).
    unfold c_full. cbn [c_set_ins c_set_count c_set_map c_cap c0].
    match goal with |- context [c_queue ?d (c_zero c)] => change (c_queue d (c_zero c)) with (c_queue c (c_zero c)) end.
    change (tc_incumbent (to_tc c)) with (c_queue c (c_zero c)).
    destruct (c_cap c <=? length (c_queue c (c_zero c))).
    + stepi Hstep i (IPushed false). stepi Hstep i (IUncounted false). stepi Hstep i (IDone (Err (MInsert (w_hash w)))).
      cbn. unfold outcome. cbn. unfold i. rewrite last_lookup. auto 10.
    + stepi Hstep i (IPushed true). stepi Hstep i (IUncounted true). stepi Hstep i (IDone (Ok tt)).
      unfold outcome. cbn. unfold i. rewrite last_lookup. unfold tc_set_queues, tc_incumbent, tc_candidate, c_queue. cbn.
      destruct (c_zero c); cbn; auto 10.
Qed.
