(** * Schedules: calls and outcomes, room, progress. *)
From Verif Require Import Base BaseFacts Hex Types Rlp FixedCodec Mempool MempoolFacts MempoolMore MempoolConc MempoolConcFacts MempoolConcProps.
Local Open Scope nat_scope.

(** The insertion calls of a schedule, in the order they start, and what the
    i-th of them has returned so far *)
Definition calls (s : list label) : list (signed_tx * bool) :=
  omap (fun l => match l with LSpawn t b => Some (t, b) | _ => None end) s.
Definition outcome (c : cst) (i : nat) : option (res mp_err unit) :=
  match c_ins c !! i with Some (_, IDone r) => Some r | _ => None end.

Lemma calls_snoc s l : calls (s ++ [l]) = calls s ++ match l with LSpawn t b => [(t, b)] | _ => [] end.
Proof. unfold calls. rewrite omap_app. destruct l; reflexivity. Qed.

Lemma set_ins_fst (l : list (wrapper * ist)) i w st st' : l !! i = Some (w, st) -> (<[i := (w, st')]> l).*1 = l.*1.
Proof. intros H. rewrite list_fmap_insert. cbn. apply list_insert_id. rewrite list_lookup_fmap, H. reflexivity. Qed.

Lemma step_ins_fst c l : (c_ins (c_step c l)).*1 =
  (c_ins c).*1 ++ match l with LSpawn t b => [MkW (length (c_ins c)) t b] | _ => [] end.
Proof.
  destruct l as [t b|i|limit cur tmo|k|hs|i k]; cbn [c_step]; rewrite ?app_nil_r.
  - cbn. rewrite fmap_app. reflexivity.
  - unfold ins_step. destruct (c_ins c !! i) as [[w st]|] eqn:Hi; [|reflexivity].
    destruct st as [| | |z|ok|[]|r]; repeat match goal with |- context [match ?x with _ => _ end] => destruct x end;
      cbn; try reflexivity; eapply set_ins_fst; exact Hi.
  - destruct (c_pkg c); reflexivity.
  - unfold pkg_step. destruct (c_pkg c) as [|a z s|a z s w|a z s w|z s|s|s|s w|s rest]; try reflexivity;
      repeat match goal with |- context [match ?x with _ => _ end] => destruct x end; reflexivity.
  - reflexivity.
  - unfold fl_step. destruct (c_fl c !! i) as [[[|h todo] hs|w todo hs|rest]|]; try reflexivity;
      repeat match goal with |- context [match ?x with _ => _ end] => destruct x end; reflexivity.
Qed.

Definition callw (i : nat) (x : signed_tx * bool) : wrapper := MkW i x.1 x.2.
Lemma run_calls cap s : (c_ins (c_run (c_new cap) s)).*1 = imap callw (calls s).
Proof.
  induction s as [|l s IH] using rev_ind; [reflexivity|]. rewrite run_snoc, step_ins_fst, IH, calls_snoc, imap_app. f_equal.
  destruct l; try reflexivity. cbn. unfold callw. cbn. rewrite Nat.add_0_r.
  replace (length (calls s)) with (length (imap callw (calls s))) by apply imap_length. rewrite <- IH, fmap_length. reflexivity.
Qed.
Lemma run_call cap s i t b : calls s !! i = Some (t, b) -> exists st, c_ins (c_run (c_new cap) s) !! i = Some (MkW i t b, st).
Proof.
  intros H. pose proof (run_calls cap s) as E. apply (f_equal (lookup i)) in E.
  rewrite list_lookup_fmap, list_lookup_imap, H in E. cbn in E. destruct (c_ins _ !! i) as [[w st]|]; [|discriminate].
  injection E as ->. eauto.
Qed.
Lemma run_call' cap s i w st : c_ins (c_run (c_new cap) s) !! i = Some (w, st) -> exists t b, calls s !! i = Some (t, b) /\ w = MkW i t b.
Proof.
  intros H. pose proof (run_calls cap s) as E. apply (f_equal (lookup i)) in E.
  rewrite list_lookup_fmap, list_lookup_imap, H in E. cbn in E. destruct (calls s !! i) as [[t b]|]; [|discriminate].
  injection E as ->. eauto.
Qed.
Lemma run_length cap s : length (c_ins (c_run (c_new cap) s)) = length (calls s).
Proof. rewrite <- (fmap_length fst), run_calls. apply imap_length. Qed.

(** ** Room *)
Lemma cap_step c l : c_cap (c_step c l) = c_cap c.
Proof.
  destruct l as [t b|i|limit cur tmo|k|hs|i k]; cbn [c_step]; try reflexivity.
  - unfold ins_step. destruct (c_ins c !! i) as [[w st]|]; [|reflexivity].
    destruct st as [| | |z|ok|[]|r]; repeat match goal with |- context [match ?x with _ => _ end] => destruct x end; reflexivity.
  - destruct (c_pkg c); reflexivity.
  - unfold pkg_step. destruct (c_pkg c) as [|a z s|a z s w|a z s w|z s|s|s|s w|s rest]; try reflexivity;
      repeat match goal with |- context [match ?x with _ => _ end] => destruct x end; reflexivity.
  - unfold fl_step. destruct (c_fl c !! i) as [[[|h todo] hs|w todo hs|rest]|]; try reflexivity;
      repeat match goal with |- context [match ?x with _ => _ end] => destruct x end; reflexivity.
Qed.
Lemma cap_run c s : c_cap (c_run c s) = c_cap c.
Proof. revert c. induction s as [|l s IH]; intros c; [reflexivity|]. change (c_cap (c_run (c_step c l) s) = c_cap c). rewrite IH. apply cap_step. Qed.

Lemma ids_bound c : cinv c -> length (allw c) <= length (c_ins c).
Proof.
  intros Hc. rewrite <- (map_length w_id). rewrite <- (seq_length (length (c_ins c)) 0). apply submseteq_length, NoDup_submseteq.
  - apply cnt_nodup. intros i. exact (ci_once c i Hc).
  - intros i Hi. apply elem_of_list_fmap in Hi as (w & -> & Hw). destruct (ci_known c Hc w Hw) as [st E].
    apply elem_of_seq. apply lookup_lt_Some in E. lia.
Qed.
Lemma ids_bound_lt c i w st : cinv c -> c_ins c !! i = Some (w, st) -> pushed st = false -> length (allw c) < length (c_ins c).
Proof.
  intros Hc Hi Hp. enough (X : length (i :: map w_id (allw c)) <= length (c_ins c)) by (cbn in X; rewrite map_length in X; lia).
  rewrite <- (seq_length (length (c_ins c)) 0). apply submseteq_length, NoDup_submseteq.
  - constructor; [|apply cnt_nodup; intros j; exact (ci_once c j Hc)]. intros X. apply elem_of_list_fmap in X as (v & Ev & Hv).
    destruct (ci_pushed c v Hc Hv) as (st' & E & P). rewrite <- Ev, Hi in E. injection E as -> ->. congruence.
  - intros j Hj. apply elem_of_cons in Hj as [->|Hj].
    + apply elem_of_seq. apply lookup_lt_Some in Hi. lia.
    + apply elem_of_list_fmap in Hj as (v & -> & Hv). destruct (ci_known c Hc v Hv) as [st' E].
      apply elem_of_seq. apply lookup_lt_Some in E. lia.
Qed.
Lemma queue_len c z : length (c_queue c z) + length (held (c_pkg c)) <= length (allw c).
Proof. unfold allw. rewrite !app_length. destruct z; unfold c_queue; lia. Qed.

Definition refused (st : ist) : bool :=
  match st with IPushed false | IUncounted false | IDone (Err (MInsert _)) => true | _ => false end.
Definition room (c : cst) : Prop :=
  c_over c = [] /\ forall i w st, c_ins c !! i = Some (w, st) -> refused st = false.

Lemma not_full c z i w st : cinv c -> length (c_ins c) <= c_cap c -> c_ins c !! i = Some (w, st) -> pushed st = false -> c_full c z = false.
Proof.
  intros Hc Hl Hi Hp. unfold c_full. apply Nat.leb_gt. pose proof (ids_bound_lt c i w st Hc Hi Hp). pose proof (queue_len c z). lia.
Qed.
Lemma not_full_pkg c z w : cinv c -> length (c_ins c) <= c_cap c -> held (c_pkg c) = [w] -> c_full c z = false.
Proof.
  intros Hc Hl Hh. unfold c_full. apply Nat.leb_gt. pose proof (ids_bound c Hc). pose proof (queue_len c z) as X. rewrite Hh in X. cbn in X. lia.
Qed.

Lemma room_set c l i w st st' : room c -> l = c_ins c -> l !! i = Some (w, st) -> refused st' = false ->
  forall j x s, <[i := (w, st')]> l !! j = Some (x, s) -> refused s = false.
Proof.
  intros [_ H] -> Hi Hr j x s E. destruct (decide (j = i)) as [->|ne].
  - rewrite list_lookup_insert in E by (eapply lookup_lt_Some; exact Hi). injection E as <- <-. exact Hr.
  - rewrite list_lookup_insert_ne in E by congruence. exact (H _ _ _ E).
Qed.

Lemma room_step c l : cinv c -> room c -> length (c_ins c) <= c_cap c -> room (c_step c l).
Proof.
  intros Hc Hr Hl. destruct l as [t b|i|limit cur tmo|k|hs|i k]; cbn [c_step].
  - destruct Hr as [H1 H2]. split; [exact H1|]. intros i w st E. cbn in E.
    apply lookup_snoc in E as [E|[_ E]]; [exact (H2 _ _ _ E)|]. injection E as _ ->. reflexivity.
  - unfold ins_step. destruct (c_ins c !! i) as [[w st]|] eqn:Hi; [|exact Hr].
    destruct st as [| | |z|ok|ok|r].
    + destruct (c_map c !! w_hash w); (split; [exact (proj1 Hr)|]; cbn; eapply (room_set c); [exact Hr|reflexivity|exact Hi|reflexivity]).
    + split; [exact (proj1 Hr)|]; cbn; eapply (room_set c); [exact Hr|reflexivity|exact Hi|reflexivity].
    + split; [exact (proj1 Hr)|]; cbn; eapply (room_set c); [exact Hr|reflexivity|exact Hi|reflexivity].
    + rewrite (not_full c z i w _ Hc Hl Hi eq_refl).
      split; [exact (proj1 Hr)|]; cbn; eapply (room_set c); [exact Hr|reflexivity|exact Hi|reflexivity].
    + pose proof (proj2 Hr _ _ _ Hi) as X. destruct ok; [|discriminate X].
      split; [exact (proj1 Hr)|]; cbn; eapply (room_set c); [exact Hr|reflexivity|exact Hi|reflexivity].
    + pose proof (proj2 Hr _ _ _ Hi) as X. destruct ok; [|discriminate X].
      split; [exact (proj1 Hr)|]; cbn; eapply (room_set c); [exact Hr|reflexivity|exact Hi|reflexivity].
    + exact Hr.
  - destruct (c_pkg c); exact Hr.
  - unfold pkg_step. destruct (c_pkg c) as [|a z s|a z s w|a z s w|z s|s|s|s w|s rest] eqn:Ep; try exact Hr.
    + destruct (c_queue c z); exact Hr.
    + destruct (decide _); [exact Hr|]. destruct (is_timeout _ _ _); exact Hr.
    + rewrite (not_full_pkg c (negb z) w Hc Hl) by (rewrite Ep; reflexivity). exact Hr.
    + destruct (decide _); exact Hr.
    + destruct (c_queue c _); exact Hr.
    + rewrite (not_full_pkg c (c_zero c) w Hc Hl) by (rewrite Ep; reflexivity). exact Hr.
    + destruct rest; [exact Hr|]. destruct (_ !! k); exact Hr.
  - exact Hr.
  - unfold fl_step. destruct (c_fl c !! i) as [[[|h todo] hs|w todo hs|rest]|]; try exact Hr.
    + destruct (c_map c !! h); exact Hr.
    + destruct (rest !! k); exact Hr.
Qed.

Lemma room_run cap s : length (calls s) <= cap -> room (c_run (c_new cap) s).
Proof.
  induction s as [|l s IH] using rev_ind; intros H.
  - split; [reflexivity|]. intros i w st E. discriminate E.
  - rewrite run_snoc. rewrite calls_snoc, app_length in H. assert (H' : length (calls s) <= cap) by lia.
    apply room_step; [apply c_run_inv, cinv_new|exact (IH H')|]. rewrite run_length, cap_run. exact H'.
Qed.

(** ** Refusals as duplicates are justified *)
Definition owns (st : ist) : bool := match st with IStart | IDone (Err _) => false | _ => true end.
Record dupinv (c : cst) : Prop := {
  du_map : forall h w, c_map c !! h = Some w -> w_hash w = h /\ exists st, c_ins c !! w_id w = Some (w, st) /\ owns st = true;
  du_dup : forall i w h, c_ins c !! i = Some (w, IDone (Err (MDup h))) ->
     w_hash w = h /\ exists j v st, j <> i /\ c_ins c !! j = Some (v, st) /\ w_hash v = h }.

Lemma du_same c c' : dupinv c -> c_ins c' = c_ins c -> (forall h w, c_map c' !! h = Some w -> c_map c !! h = Some w) -> dupinv c'.
Proof.
  intros [H1 H2] E1 E2. constructor; rewrite E1; auto.
Qed.

Lemma du_set c c' i w st st' : cinv c -> dupinv c -> c_ins c !! i = Some (w, st) -> c_ins c' = <[i := (w, st')]> (c_ins c) ->
  (forall h x, c_map c' !! h = Some x -> h = w_hash w /\ x = w /\ owns st' = true \/
     c_map c !! h = Some x /\ (x = w -> owns st = true -> owns st' = true)) ->
  (forall h, st' = IDone (Err (MDup h)) -> w_hash w = h /\ exists j v s, j <> i /\ c_ins c !! j = Some (v, s) /\ w_hash v = h) -> dupinv c'.
Proof.
  intros Hc [H1 H2] Hi E1 E2 E3.
  assert (Hlt : i < length (c_ins c)) by (eapply lookup_lt_Some; exact Hi).
  assert (Hid : w_id w = i) by exact (ci_ids c Hc _ _ _ Hi).
  constructor; rewrite E1.
  - intros h x E. apply E2 in E as [(-> & -> & E)|[E K]].
    + split; [reflexivity|]. rewrite Hid, list_lookup_insert by exact Hlt. eauto.
    + destruct (H1 h x E) as (E4 & s & E5 & E6). split; [exact E4|]. destruct (decide (w_id x = i)) as [Ei|ne].
      * rewrite Ei in *. rewrite Hi in E5. injection E5 as <- <-. rewrite list_lookup_insert by exact Hlt. eauto.
      * rewrite list_lookup_insert_ne by congruence. eauto.
  - assert (Hkeep : forall j v s, c_ins c !! j = Some (v, s) -> exists s', <[i:=(w, st')]> (c_ins c) !! j = Some (v, s')).
    { intros j v s E. destruct (decide (j = i)) as [->|ne].
      - rewrite Hi in E. injection E as <- <-. rewrite list_lookup_insert by exact Hlt. eauto.
      - rewrite list_lookup_insert_ne by congruence. eauto. }
    intros j x h E. destruct (decide (j = i)) as [->|ne].
    + rewrite list_lookup_insert in E by exact Hlt. injection E as <- E. destruct (E3 h E) as (E4 & k & v & s & N & E5 & E6).
      split; [exact E4|]. destruct (Hkeep k v s E5) as [s' E7]. eauto 8.
    + rewrite list_lookup_insert_ne in E by congruence. destruct (H2 j x h E) as (E4 & k & v & s & N & E5 & E6).
      split; [exact E4|]. destruct (Hkeep k v s E5) as [s' E7]. eauto 8.
Qed.

Lemma dup_step c l : cinv c -> dupinv c -> dupinv (c_step c l).
Proof.
  intros Hc Hd. destruct l as [t b|i|limit cur tmo|k|hs|i k]; cbn [c_step].
  - destruct Hd as [H1 H2].
    assert (Hk : forall j x, c_ins c !! j = Some x -> (c_ins c ++ [(MkW (length (c_ins c)) t b, IStart)]) !! j = Some x).
    { intros j x E. apply lookup_app_l_Some. exact E. }
    constructor; cbn.
    + intros h w E. destruct (H1 h w E) as (E1 & st & E2 & E3). eauto.
    + intros i w h E. apply lookup_snoc in E as [E|[_ E]]; [|discriminate E].
      destruct (H2 i w h E) as (E4 & j & v & s & N & E5 & E6). split; [exact E4|]. eauto 8.
  - unfold ins_step. destruct (c_ins c !! i) as [[w st]|] eqn:Hi; [|exact Hd].
    destruct st as [| | |z|ok|ok|r].
    + destruct (c_map c !! w_hash w) as [v|] eqn:Em.
      * eapply (du_set c); [exact Hc|exact Hd|exact Hi|reflexivity|cbn|].
        -- intros h x E. right. split; [exact E|]. discriminate.
        -- intros h [= <-]. split; [reflexivity|]. destruct (du_map c Hd _ _ Em) as (E1 & s & E2 & E3).
           exists (w_id v), v, s. split; [|auto]. intros Ev. rewrite Ev, Hi in E2. injection E2 as _ <-. discriminate E3.
      * eapply (du_set c); [exact Hc|exact Hd|exact Hi|reflexivity|cbn|discriminate].
        intros h x E. destruct (decide (h = w_hash w)) as [->|ne].
        -- rewrite lookup_insert in E. injection E as <-. auto.
        -- rewrite lookup_insert_ne in E by congruence. auto.
    + eapply (du_set c); [exact Hc|exact Hd|exact Hi|reflexivity|cbn; auto|discriminate].
    + eapply (du_set c); [exact Hc|exact Hd|exact Hi|reflexivity|cbn; auto|discriminate].
    + destruct (c_full c z); (eapply (du_set c); [exact Hc|exact Hd|exact Hi|reflexivity|cbn; auto|discriminate]).
    + eapply (du_set c); [exact Hc|exact Hd|exact Hi|reflexivity|cbn; auto|discriminate].
    + destruct ok; (eapply (du_set c); [exact Hc|exact Hd|exact Hi|reflexivity|cbn; auto|discriminate]).
      intros h x E. apply lookup_delete_Some in E as [ne E]. right. split; [exact E|]. intros ->.
      exfalso. apply ne. symmetry. symmetry. exact (proj1 (du_map c Hd _ _ E)).
    + exact Hd.
  - destruct (c_pkg c); exact Hd || (apply (du_same c); auto).
  - unfold pkg_step. destruct (c_pkg c) as [|a z s|a z s w|a z s w|z s|s|s|s w|s rest] eqn:Ep; try exact Hd;
      try (repeat match goal with |- context [match ?x with _ => _ end] => destruct x end; (exact Hd || (apply (du_same c); auto)); fail).
    destruct rest; [apply (du_same c); auto|]. destruct (_ !! k); [|exact Hd]. apply (du_same c); auto.
    intros h' y E. cbn in E. apply lookup_delete_Some in E as [_ E]. exact E.
  - apply (du_same c); auto.
  - unfold fl_step. destruct (c_fl c !! i) as [[[|h todo] hs|w todo hs|rest]|]; try exact Hd.
    + apply (du_same c); auto.
    + destruct (c_map c !! h); apply (du_same c); auto.
    + apply (du_same c); auto.
    + destruct (rest !! k); [|exact Hd]. apply (du_same c); auto. intros h' y E. cbn in E. apply lookup_delete_Some in E as [_ E]. exact E.
Qed.
Lemma dup_run cap s : dupinv (c_run (c_new cap) s).
Proof.
  induction s as [|l s IH] using rev_ind.
  - constructor; cbn; [|discriminate]. intros h w E. rewrite lookup_empty in E. discriminate.
  - rewrite run_snoc. apply dup_step; [apply c_run_inv, cinv_new|exact IH].
Qed.

(** ** Progress *)
Lemma run_app c s s' : c_run c (s ++ s') = c_run (c_run c s) s'.
Proof. apply fold_left_app. Qed.

Definition is_ins (l : label) : bool := match l with LIns _ => true | _ => false end.
Definition is_ins_or_pkg (l : label) : bool := match l with LIns _ | LPkg _ => true | _ => false end.

Lemma ins_pkg c i : c_pkg (ins_step c i) = c_pkg c.
Proof.
  unfold ins_step. destruct (c_ins c !! i) as [[w st]|]; [|reflexivity].
  destruct st as [| | |z|ok|[]|r]; repeat match goal with |- context [match ?x with _ => _ end] => destruct x end; reflexivity.
Qed.

Definition rank (st : ist) : nat := match st with ICounted => 3 | IRole _ => 2 | IPushed _ => 1 | _ => 0 end.
Lemma ins_rank c i w st : c_ins c !! i = Some (w, st) -> counted st = true ->
  exists st', c_ins (ins_step c i) = <[i := (w, st')]> (c_ins c) /\ rank st' < rank st.
Proof.
  intros Hi Hs. unfold ins_step. rewrite Hi. destruct st as [| | |z|ok|ok|r]; try discriminate Hs.
  - eexists. split; [reflexivity|]. cbn. lia.
  - destruct (c_full c z); (eexists; split; [reflexivity|]; cbn; lia).
  - eexists. split; [reflexivity|]. cbn. lia.
Qed.

Definition ranks (l : list (wrapper * ist)) : nat := sum_list (map (fun x => rank x.2) l).
Lemma ranks_set l i w st st' : l !! i = Some (w, st) -> rank st' < rank st -> ranks (<[i := (w, st')]> l) < ranks l.
Proof.
  unfold ranks. revert i. induction l as [|x l IH]; intros i H R; [discriminate|]. destruct i as [|i].
  - injection H as ->. change (rank st' + ranks l < rank st + ranks l). lia.
  - specialize (IH i H R). change (rank x.2 + ranks (<[i := (w, st')]> l) < rank x.2 + ranks l). unfold ranks. lia.
Qed.

Lemma inserters_finish c : cinv c -> exists s', forallb is_ins s' = true /\ c_count (c_run c s') = 0 /\ c_pkg (c_run c s') = c_pkg c.
Proof.
  remember (ranks (c_ins c)) as n eqn:En. revert c En. induction n as [n IH] using lt_wf_ind. intros c -> Hc.
  destruct (decide (c_count c = 0)) as [E|ne]; [exists []; auto|].
  rewrite (ci_count c Hc) in ne. unfold countedn in ne.
  destruct (filter (fun x : wrapper * ist => counted x.2 = true) (c_ins c)) as [|[w st] k] eqn:Ef; [contradiction ne; reflexivity|].
  assert (X : (w, st) ∈ filter (fun x : wrapper * ist => counted x.2 = true) (c_ins c)) by (rewrite Ef; left).
  apply elem_of_list_filter in X as [Hs Hi]. apply elem_of_list_lookup in Hi as [i Hi].
  destruct (ins_rank c i w st Hi Hs) as (st' & E1 & E2).
  destruct (IH (ranks (c_ins (ins_step c i)))) with (c := ins_step c i) as (s' & H1 & H2 & H3); auto.
  - rewrite E1. eapply ranks_set; eassumption.
  - apply ins_step_inv, Hc.
  - exists (LIns i :: s'). change (c_run c (LIns i :: s')) with (c_run (ins_step c i) s'). cbn [forallb is_ins]. rewrite H1, H2, H3. split; [reflexivity|]. split; [reflexivity|]. apply ins_pkg.
Qed.

Definition pmeas (c : cst) : nat :=
  match c_pkg c with
  | PIdle => 0
  | PDelete s rest => 1 + length rest
  | PDrain s => 3 + 2 * length (c_queue c (negb (c_zero c))) + length (pk_timeout s)
  | PDrained s _ => 4 + 2 * length (c_queue c (negb (c_zero c))) + length (pk_timeout s)
  | PWait s => 4 + 2 * length (c_queue c (negb (c_zero c))) + length (pk_timeout s)
  | PSwitch z s => 5 + 2 * length (c_queue c (c_zero c)) + length (pk_timeout s)
  | PLoop _ z s => 6 + 5 * length (c_queue c (c_zero c)) + length (pk_timeout s)
  | PPopped _ z s _ => 9 + 5 * length (c_queue c (c_zero c)) + length (pk_timeout s)
  | PPush _ z s _ => 8 + 5 * length (c_queue c (c_zero c)) + length (pk_timeout s)
  end.

Lemma pmeas_step c : cinv c -> c_count c = 0 -> c_pkg c <> PIdle -> pmeas (pkg_step c 0) < pmeas c /\ c_count (pkg_step c 0) = 0.
Proof.
  intros Hc H0 Hp. pose proof (ci_pkg c Hc) as P. unfold pkg_inv in P. unfold pkg_step, pmeas at 2.
  destruct (c_pkg c) as [|a z s|a z s w|a z s w|z s|s|s|s w|s rest] eqn:Ep; [contradiction|..].
  - destruct P as (P1 & -> & P3 & P4). destruct (c_queue c (c_zero c)) as [|w q] eqn:Eq; (split; [|exact H0]).
    + unfold pmeas. cbn [c_set_pkg c_pkg c_zero]. change (c_queue (c_set_pkg ?a ?b) ?y) with (c_queue a y). rewrite Eq. cbn. lia.
    + unfold pmeas. cbn [c_set_pkg c_pkg c_zero c_set_queue]. change (c_queue (c_set_pkg ?a ?b) ?y) with (c_queue a y).
      rewrite queue_set_same. cbn. lia.
  - destruct P as (P1 & -> & P3 & P4). destruct (decide _); [|destruct (is_timeout _ _ _)]; (split; [|exact H0]);
      unfold pmeas; cbn [c_set_pkg c_pkg c_zero c_add_gone pk_timeout];
      change (c_queue (c_set_pkg ?a ?b) ?y) with (c_queue a y); try change (c_queue (c_add_gone ?a ?b) ?y) with (c_queue a y);
      rewrite ?app_length; cbn [length]; lia.
  - destruct P as (P1 & -> & P3 & P4). destruct (c_full c _); (split; [|exact H0]).
    + unfold pmeas. cbn. lia.
    + destruct (pick_picked (pa_limit a) w s P3) as (_ & _ & Q3).
      unfold pmeas. cbn [c_set_pkg c_pkg c_zero c_set_queue]. change (c_queue (c_set_pkg ?a ?b) ?y) with (c_queue a y).
      rewrite negb_set, Q3. lia.
  - split; [|exact H0]. unfold pmeas. cbn [c_set_pkg c_pkg c_zero c_set_zero]. change (c_queue (c_set_pkg ?a ?b) ?y) with (c_queue a y).
    change (c_queue (c_set_zero ?a ?b) ?y) with (c_queue a y). rewrite negb_involutive. lia.
  - rewrite decide_True by exact H0. split; [|exact H0]. unfold pmeas. cbn [c_set_pkg c_pkg c_zero].
    change (c_queue (c_set_pkg ?a ?b) ?y) with (c_queue a y). lia.
  - destruct (c_queue c (negb (c_zero c))) as [|w q] eqn:Eq; (split; [|exact H0]).
    + unfold pmeas. cbn. lia.
    + unfold pmeas. cbn [c_set_pkg c_pkg c_zero c_set_queue]. change (c_queue (c_set_pkg ?a ?b) ?y) with (c_queue a y).
      rewrite queue_set_same. cbn. lia.
  - destruct (c_full c _); (split; [|exact H0]).
    + unfold pmeas. cbn [c_set_pkg c_pkg c_zero c_add_over]. change (c_queue (c_set_pkg ?a ?b) ?y) with (c_queue a y).
      change (c_queue (c_add_over ?a ?b) ?y) with (c_queue a y). lia.
    + unfold pmeas. cbn [c_set_pkg c_pkg c_zero c_set_queue]. change (c_queue (c_set_pkg ?a ?b) ?y) with (c_queue a y).
      rewrite queue_set_other. lia.
  - destruct rest as [|h rest]; (split; [|exact H0]); unfold pmeas; cbn; rewrite ?drop_0; lia.
Qed.

Lemma package_finishes c : cinv c -> exists s', forallb is_ins_or_pkg s' = true /\ c_pkg (c_run c s') = PIdle.
Proof.
  intros Hc. destruct (inserters_finish c Hc) as (s1 & A1 & A2 & A3).
  enough (X : forall n d, n = pmeas d -> cinv d -> c_count d = 0 ->
    exists s', forallb is_ins_or_pkg s' = true /\ c_pkg (c_run d s') = PIdle).
  { destruct (X _ (c_run c s1) eq_refl (c_run_inv c s1 Hc) A2) as (s2 & B1 & B2). exists (s1 ++ s2). split.
    - rewrite forallb_app, B1, andb_true_r. apply forallb_forall. intros x Hx. pose proof (proj1 (forallb_forall _ _) A1 x Hx).
      destruct x; try discriminate; reflexivity.
    - rewrite run_app. exact B2. }
  clear. induction n as [n IH] using lt_wf_ind. intros d -> Hd H0.
  assert (Dec : c_pkg d = PIdle \/ c_pkg d <> PIdle) by (destruct (c_pkg d); auto; right; discriminate).
  destruct Dec as [E|ne]; [exists []; auto|].
  destruct (pmeas_step d Hd H0 ne) as [M1 M2].
  destruct (IH _ M1 (pkg_step d 0) eq_refl (pkg_step_inv d 0 Hd) M2) as (s' & B1 & B2).
  exists (LPkg 0 :: s'). auto.
Qed.
