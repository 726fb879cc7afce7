(** * Nodes loaded on demand: reading and inserting. *)
From Verif Require Import Base BaseFacts Types Rlp Mpt MptFacts.
Local Open Scope nat_scope.

Section Den.
  Context (digest : bytes -> hash).
  Notation enc := (enc digest).
  Implicit Types (db : gmap hash bytes).

  (** [n0] is [n], loaded if it was only a hash; the tree it is a part of being [t]. *)
  Definition loaded db (t n n0 : node) : Prop :=
    n0 = n \/ exists d, n = HashN (digest d) /\ db !! digest d = Some d /\ d = enc t /\ 32 <= length d /\ decode d = Some n0.

  (** Node [n], with the database, stands for the tree [t]. *)
  Fixpoint den db (t n : node) {struct t} : Prop :=
    exists n0, loaded db t n n0 /\
    match t, n0 with
    | Empty, Empty => True
    | Leaf k v, Leaf k' v' => k' = k /\ v' = v
    | Ext k c, Ext k' c' => k' = k /\ den db c c'
    | Branch ts v, Branch cs v' =>
        v' = v /\ (fix all ts cs {struct ts} :=
                     match ts, cs with
                     | [], [] => True
                     | t :: ts, c :: cs => den db t c /\ all ts cs
                     | _, _ => False
                     end) ts cs
    | _, _ => False
    end.
  Definition shape db (t n0 : node) : Prop :=
    match t, n0 with
    | Empty, Empty => True
    | Leaf k v, Leaf k' v' => k' = k /\ v' = v
    | Ext k c, Ext k' c' => k' = k /\ den db c c'
    | Branch ts v, Branch cs v' => v' = v /\ Forall2 (den db) ts cs
    | _, _ => False
    end.
  Lemma den_shape db t n : den db t n <-> exists n0, loaded db t n n0 /\ shape db t n0.
  Proof.
    assert (forall ts cs, (fix all ts cs {struct ts} :=
                     match ts, cs with
                     | [], [] => True
                     | t :: ts, c :: cs => den db t c /\ all ts cs
                     | _, _ => False
                     end) ts cs <-> Forall2 (den db) ts cs) as Hf.
    { induction ts as [|u ts IH]; intros [|c cs]; split; intros H; try (destruct H; fail); try (inversion H; fail); try exact I; try constructor.
      - apply H.
      - apply IH, H.
      - inversion H; subst. assumption.
      - inversion H; subst. apply IH. assumption. }
    destruct t as [|k v|k c|ts v|h]; cbn [den]; try reflexivity.
    split; intros (n0 & Hl & H); exists n0; split; try exact Hl; destruct n0; try (destruct H; fail); (split; [apply H|]); apply Hf, H.
  Qed.
  Lemma den_self db t n : shape db t n -> den db t n.
  Proof. intros H. apply den_shape. exists n. split; [left; reflexivity|exact H]. Qed.
  Lemma den_resolve db t n : den db t n -> exists n0, resolve db n = Some n0 /\ shape db t n0.
  Proof.
    intros H. apply den_shape in H as (n0 & [->|(d & -> & Hd & _ & _ & Hdec)] & Hs).
    - exists n. split; [|exact Hs]. destruct n; try reflexivity. destruct t; destruct Hs.
    - exists n0. cbn [resolve]. rewrite Hd. auto.
  Qed.
  (** A tree stands for itself. *)
  Lemma den_pure db t : wf t -> den db t t.
  Proof.
    induction t as [|k v|k c IH|cs v IH|h] using node_ind'; intros Hw; [| | | |destruct Hw]; apply den_self; cbn [shape].
    - exact I.
    - auto.
    - split; [reflexivity|]. apply IH, Hw.
    - split; [reflexivity|]. apply wf_branch in Hw as (_ & _ & _ & Hw). induction cs as [|c cs IHc]; constructor.
      + apply (Forall_inv IH), (Forall_inv Hw).
      + apply IHc; [exact (Forall_inv_tail IH)|exact (Forall_inv_tail Hw)].
  Qed.
  (** In an empty database nothing is loaded. *)
  Lemma den_empty t : forall n, den ∅ t n -> n = t.
  Proof.
    induction t as [|k v|k c IH|cs v IH|h] using node_ind'; intros n H; apply den_shape in H as (n0 & [->|(d & _ & Hd & _)] & Hs);
      try (rewrite lookup_empty in Hd; discriminate); destruct n as [|k' v'|k' c'|cs' v'|]; try (destruct Hs; fail).
    - reflexivity.
    - destruct Hs as [-> ->]. reflexivity.
    - destruct Hs as [-> Hc]. rewrite (IH _ Hc). reflexivity.
    - destruct Hs as [-> Hc]. f_equal. induction Hc as [|u c ts cs Hu _ IHc]; [reflexivity|].
      rewrite (Forall_inv IH _ Hu), IHc; [reflexivity|exact (Forall_inv_tail IH)].
  Qed.
  (** More in the database changes nothing. *)
  Lemma den_mono db db' t : db ⊆ db' -> forall n, den db t n -> den db' t n.
  Proof.
    intros Hs. induction t as [|k v|k c IH|cs v IH|h] using node_ind'; intros n H; apply den_shape in H as (n0 & Hl & Hh);
      (assert (loaded db' _ n n0) as Hl' by (destruct Hl as [->|(d & E1 & E2 & E3)]; [left; reflexivity|right; exists d; split; [exact E1|];
         split; [eapply lookup_weaken; eassumption|exact E3]])); apply den_shape; exists n0; (split; [exact Hl'|]);
      destruct n0 as [|k' v'|k' c'|cs' v'|]; try (destruct Hh; fail); try exact Hh.
    - destruct Hh as [-> Hc]. split; [reflexivity|]. apply IH, Hc.
    - destruct Hh as [-> Hc]. split; [reflexivity|]. clear Hl Hl'. induction Hc as [|u c ts cs2 Hu _ IHc]; constructor.
      + apply (Forall_inv IH), Hu.
      + apply IHc. exact (Forall_inv_tail IH).
  Qed.

  (** *** Reading *)
  Theorem get_spec db f : forall n t p, den db t n -> wf t -> kp p -> length p < f -> get_at f db n p = Some (look t p).
  Proof.
    induction f as [|f IH]; intros n t p Hd Hw Hp Hf; [lia|]. cbn [get_at].
    destruct (den_resolve _ _ _ Hd) as (n0 & -> & Hs).
    destruct t as [|k v|k c|ts v|h], n0 as [|k' v'|k' c'|cs v'|h']; try (destruct Hs; fail); [reflexivity| | |].
    - destruct Hs as [-> ->]. reflexivity.
    - destruct Hs as [-> Hc]. cbn [look]. destruct Hw as (Hne & Hl & Hb & Hw).
      destruct (Nat.eqb_spec (common p k) (length k)) as [E|]; [|reflexivity]. apply common_len in E as (r & ->). rewrite drop_app.
      apply IH; [exact Hc|exact Hw|apply (kp_app k); assumption|]. rewrite app_length in Hf. destruct k; [congruence|cbn in Hf; lia].
    - destruct Hs as [-> Hc]. destruct p as [|i p]; [destruct (kp_nil Hp)|]. rewrite look_branch.
      apply kp_cons in Hp as [[-> ->]|[Hi Hp]]; [reflexivity|]. destruct (Nat.eqb_spec i TERM) as [->|]; [lia|].
      pose proof Hw as Hw'. apply wf_branch in Hw as (Hlen & _ & _ & Hws).
      destruct (lookup_lt_is_Some_2 ts i) as [t Ht]; [lia|]. destruct (Forall2_lookup_l _ _ _ _ _ Hc Ht) as (c & Ec & Hct).
      rewrite !nth_lookup, Ht, Ec. apply IH; [exact Hct| |exact Hp|cbn in Hf; lia]. eapply Forall_lookup_1; eassumption.
  Qed.

  (** *** Inserting *)
  Definition look_is (t' t : node) (p : nibs) (v : bytes) : Prop :=
    forall q, kp q -> look t' q = if decide (q = p) then Some v else look t q.

  Lemma live_put cs v i c j : length cs = 16 -> live cs v j -> c <> Empty -> live (<[i := c]> cs) v j.
  Proof.
    intros Hl [H|(Hj & c' & Hc & Hne)] Hc'; [left; exact H|right]. split; [exact Hj|]. rewrite nth_lookup in Hc |- *.
    destruct (decide (i = j)) as [->|Hij]; [rewrite list_lookup_insert by lia; eauto|].
    rewrite list_lookup_insert_ne by exact Hij. eauto.
  Qed.

  (** Two subtrees below a new branch. *)
  Definition sub_at (i : nat) (n : node) (p : nibs) : Prop :=
    kp (i :: p) /\ (i = TERM -> exists k v, n = Leaf k v).
  Lemma fork_den db i n t j m u : den db t n -> den db u m -> i <> j ->
    (i = TERM -> exists v, n = Leaf [] v /\ t = Leaf [] v) -> (j = TERM -> exists v, m = Leaf [] v /\ u = Leaf [] v) ->
    den db (fork i t j u) (fork i n j m).
  Proof.
    intros Ht Hu Hij Hi Hj. apply den_self. unfold fork, bput.
    assert (Forall2 (den db) no_children no_children) as H0.
    { unfold no_children. cbn [repeat]. repeat (constructor; [apply den_self; exact I|]). constructor. }
    destruct (Nat.eqb_spec i TERM) as [Ei|Ei].
    - destruct (Hi Ei) as (v & -> & ->). destruct (Nat.eqb_spec j TERM); [lia|]. cbn [shape]. split; [reflexivity|].
      apply Forall2_insert; assumption.
    - destruct (Nat.eqb_spec j TERM) as [Ej|Ej].
      + destruct (Hj Ej) as (v & -> & ->). cbn [shape]. split; [reflexivity|]. apply Forall2_insert; assumption.
      + cbn [shape]. split; [reflexivity|]. apply Forall2_insert; [apply Forall2_insert|]; assumption.
  Qed.

  (** What may hang at nibble [i] of a branch. *)
  Definition fits_at (i : nat) (t : node) : Prop :=
    (i < 16 /\ wf t /\ t <> Empty) \/ (i = TERM /\ exists v, t = Leaf [] v /\ v <> []).
  Definition look_at (i : nat) (t : node) (p : nibs) : option bytes :=
    if decide (i = TERM) then match t with Leaf _ v => Some v | _ => None end else look t p.
  Lemma empty_lookup i c : no_children !! i = Some c -> c = Empty.
  Proof. unfold no_children. intros H. rewrite <- nth_lookup in H. apply nth_error_In in H. apply repeat_spec in H. exact H. Qed.
  Lemma fork_wf i t j u : i <> j -> fits_at i t -> fits_at j u -> wf (fork i t j u).
  Proof.
    intros Hij Hi Hj. unfold fork, bput.
    assert (Forall wf no_children) as H0 by (unfold no_children; cbn [repeat]; repeat (constructor; [exact I|]); constructor).
    assert (length no_children = 16) as L0 by reflexivity.
    destruct Hi as [(Hi & Hw & Hne)|(-> & v & -> & Hv)], Hj as [(Hj & Hw' & Hne')|(-> & v' & -> & Hv')].
    - destruct (Nat.eqb_spec i TERM); [lia|]. destruct (Nat.eqb_spec j TERM); [lia|]. apply wf_branch.
      split; [rewrite !insert_length; exact L0|]. split; [discriminate|]. split.
      + exists i, j. split; [exact Hij|]. split; right; (split; [assumption|]); setoid_rewrite nth_lookup.
        * exists t. split; [|exact Hne]. rewrite list_lookup_insert_ne by congruence. apply list_lookup_insert. lia.
        * exists u. split; [|exact Hne']. apply list_lookup_insert. rewrite insert_length. lia.
      + apply Forall_insert; [apply Forall_insert|]; assumption.
    - destruct (Nat.eqb_spec i TERM); [lia|]. rewrite Nat.eqb_refl. apply wf_branch.
      split; [rewrite !insert_length; exact L0|]. split; [congruence|]. split.
      + exists i, TERM. split; [exact Hij|]. split; [right; split; [assumption|]; setoid_rewrite nth_lookup|left; split; [reflexivity|discriminate]].
        exists t. split; [|exact Hne]. apply list_lookup_insert. lia.
      + apply Forall_insert; assumption.
    - rewrite Nat.eqb_refl. destruct (Nat.eqb_spec j TERM); [lia|]. apply wf_branch.
      split; [rewrite !insert_length; exact L0|]. split; [congruence|]. split.
      + exists j, TERM. split; [congruence|]. split; [right; split; [assumption|]; setoid_rewrite nth_lookup|left; split; [reflexivity|discriminate]].
        exists u. split; [|exact Hne']. apply list_lookup_insert. lia.
      + apply Forall_insert; assumption.
    - congruence.
  Qed.
  Lemma fork_look i t j u x p : i <> j -> fits_at i t -> fits_at j u -> kp (x :: p) ->
    look (fork i t j u) (x :: p) = if decide (x = i) then look_at i t p else if decide (x = j) then look_at j u p else None.
  Proof.
    intros Hij Hi Hj Hx. unfold fork, bput, look_at.
    assert (forall y, y <> TERM -> match nth_error no_children y with Some c => look c p | None => None end = None) as H0.
    { intros y _. rewrite nth_lookup. destruct (no_children !! y) as [c|] eqn:E; [|reflexivity]. rewrite (empty_lookup _ _ E). reflexivity. }
    assert (x = TERM \/ x < 16) as Hx'. { apply kp_cons in Hx. tauto. }
    destruct Hi as [(Hi & Hw & Hne)|(-> & v & -> & Hv)], Hj as [(Hj & Hw' & Hne')|(-> & v' & -> & Hv')]; [| | |congruence].
    - destruct (Nat.eqb_spec i TERM); [lia|]. destruct (Nat.eqb_spec j TERM); [lia|]. rewrite look_branch.
      rewrite (decide_False (P := i = TERM)) by lia. rewrite (decide_False (P := j = TERM)) by lia.
      destruct (Nat.eqb_spec x TERM) as [->|Hxt]; [rewrite !decide_False by lia; reflexivity|]. rewrite nth_lookup.
      destruct (decide (x = i)) as [->|Hxi].
      { rewrite list_lookup_insert_ne by congruence. rewrite list_lookup_insert by (cbn; lia). reflexivity. }
      destruct (decide (x = j)) as [->|Hxj]; [rewrite list_lookup_insert by (rewrite insert_length; cbn; lia); reflexivity|].
      rewrite !list_lookup_insert_ne by congruence. rewrite <- nth_lookup. apply H0, Hxt.
    - destruct (Nat.eqb_spec i TERM); [lia|]. rewrite Nat.eqb_refl, look_branch.
      rewrite (decide_False (P := i = TERM)) by lia. rewrite (decide_True (P := TERM = TERM)) by reflexivity.
      destruct (Nat.eqb_spec x TERM) as [->|Hxt]; [rewrite decide_False by lia; rewrite decide_True by reflexivity; reflexivity|]. rewrite nth_lookup.
      destruct (decide (x = i)) as [->|Hxi]; [rewrite list_lookup_insert by (cbn; lia); reflexivity|].
      rewrite decide_False by exact Hxt. rewrite !list_lookup_insert_ne by congruence. rewrite <- nth_lookup. apply H0, Hxt.
    - rewrite Nat.eqb_refl. destruct (Nat.eqb_spec j TERM); [lia|]. rewrite look_branch.
      rewrite (decide_False (P := j = TERM)) by lia. rewrite (decide_True (P := TERM = TERM)) by reflexivity.
      destruct (Nat.eqb_spec x TERM) as [->|Hxt]; [rewrite decide_True by reflexivity; reflexivity|]. rewrite nth_lookup.
      rewrite (decide_False (P := x = TERM)) by exact Hxt.
      destruct (decide (x = j)) as [->|Hxj]; [rewrite list_lookup_insert by (cbn; lia); reflexivity|].
      rewrite !list_lookup_insert_ne by congruence. rewrite <- nth_lookup. apply H0, Hxt.
  Qed.
  Lemma fork_branch i t j u : is_branch (fork i t j u).
  Proof. unfold fork. destruct (bput i t _ _) as [cs v]. destruct (bput j u cs v). exact I. Qed.

  Lemma prefixed_wf pre n : low pre -> is_branch n -> wf n -> wf (prefixed pre n).
  Proof. destruct pre; intros Hl Hb Hw; [exact Hw|]. split; [discriminate|]. auto. Qed.
  Lemma prefixed_den db pre t n : den db t n -> den db (prefixed pre t) (prefixed pre n).
  Proof. destruct pre; intros H; [exact H|]. apply den_self. split; [reflexivity|exact H]. Qed.

  Theorem insert_spec db f : forall n t p v, den db t n -> wf t -> kp p -> length p < f -> v <> [] ->
    exists n' t', insert_at f db n p v = Some n' /\ den db t' n' /\ wf t' /\ t' <> Empty /\
      (is_branch t -> is_branch t') /\ look_is t' t p v.
  Proof.
    induction f as [|f IH]; intros n t p v Hd Hw Hp Hf Hv; [lia|]. cbn [insert_at].
    destruct (den_resolve _ _ _ Hd) as (n0 & -> & Hs).
    destruct t as [|k w|k c|ts w|h], n0 as [|k' w'|k' c'|cs w'|h']; try (destruct Hs; fail).
    - exists (Leaf p v), (Leaf p v). split; [reflexivity|]. split; [apply den_self; split; reflexivity|].
      split; [split; assumption|]. split; [discriminate|]. split; [intros []|]. intros q _. cbn [look].
      destruct (decide (p = q)), (decide (q = p)); congruence.
    - destruct Hs as [-> ->]. cbv zeta. destruct Hw as [Hk Hw].
      destruct (Nat.eqb_spec (common p k) (length k)) as [E|E].
      + apply common_len in E as (r & E). apply (kp_prefix _ _ _ Hk Hp) in E as ->. exists (Leaf k v), (Leaf k v).
        split; [reflexivity|]. split; [apply den_self; split; reflexivity|]. split; [split; assumption|]. split; [discriminate|].
        split; [intros []|]. intros q _. cbn [look]. destruct (decide (k = q)), (decide (q = k)); congruence.
      + destruct (common_spec p k) as (pre & rp & rk & -> & -> & Ec & Hdiff). rewrite Ec in *. rewrite take_app, !drop_app.
        rewrite app_length in E. destruct rk as [|j rk]; [cbn in E; lia|].
        assert (low pre) as Hpre.
        { clear -Hk. destruct Hk as (q & E & Hq).
          revert q E Hq. induction pre as [|a pre IHp]; intros q E Hq; [constructor|].
          destruct q as [|b q]; cbn in E; [destruct pre; discriminate|]. injection E as -> E. apply low_cons in Hq as [Hb Hq].
          apply low_cons. split; [exact Hb|]. apply (IHp q E Hq). }
        apply kp_app in Hk; [|exact Hpre]. apply kp_app in Hp; [|exact Hpre].
        destruct rp as [|i rp]; [destruct (kp_nil Hp)|]. cbn [split_leaf option_map].
        assert (fits_at j (Leaf rk w)) as Fj.
        { apply kp_cons in Hk as [[-> ->]|[Hj Hk]]; [right; eauto|left]. split; [exact Hj|]. split; [split; assumption|discriminate]. }
        assert (fits_at i (Leaf rp v)) as Fi.
        { apply kp_cons in Hp as [[-> ->]|[Hi Hp]]; [right; eauto|left]. split; [exact Hi|]. split; [split; assumption|discriminate]. }
        exists (prefixed pre (fork j (Leaf rk w) i (Leaf rp v))), (prefixed pre (fork j (Leaf rk w) i (Leaf rp v))).
        split; [reflexivity|].
        assert (wf (prefixed pre (fork j (Leaf rk w) i (Leaf rp v)))) as W.
        { apply prefixed_wf; [exact Hpre|apply fork_branch|]. apply fork_wf; [congruence|assumption|assumption]. }
        split; [apply den_pure, W|]. split; [exact W|]. split.
        { destruct pre; [|discriminate]. cbn [prefixed]. pose proof (fork_branch j (Leaf rk w) i (Leaf rp v)) as Hb.
          intros E0. rewrite E0 in Hb. exact Hb. }
        split; [intros []|]. intros q Hq. cbn [look].
        destruct (decide (pre `prefix_of` q)) as [(r & ->)|Hnp].
        2:{ rewrite look_prefixed_none by (intros r ->; apply Hnp; exists r; reflexivity).
            rewrite !decide_False; [reflexivity| |]; intros E0; apply Hnp; [exists (j :: rk)|exists (i :: rp)]; congruence. }
        rewrite look_prefixed. apply kp_app in Hq; [|exact Hpre]. destruct r as [|x r]; [destruct (kp_nil Hq)|].
        rewrite fork_look by (assumption || congruence). unfold look_at. cbn [look].
        apply kp_cons in Hk. apply kp_cons in Hp. apply kp_cons in Hq.
        destruct (decide (x = j)) as [->|Hxj].
        * rewrite (decide_False (P := pre ++ j :: r = _)) by (intros E0; apply app_inv_head in E0; congruence).
          destruct (decide (j = TERM)) as [->|Hjt].
          { destruct Hk as [[_ ->]|[? _]]; [|lia]. destruct Hq as [[_ ->]|[? _]]; [|lia]. rewrite decide_True by reflexivity. reflexivity. }
          destruct (decide (rk = r)) as [->|Hr]; [rewrite decide_True by reflexivity; reflexivity|].
          rewrite decide_False; [reflexivity|]. intros E0. apply app_inv_head in E0. congruence.
        * rewrite (decide_False (P := pre ++ j :: rk = _)) by (intros E0; apply app_inv_head in E0; congruence).
          destruct (decide (x = i)) as [->|Hxi].
          2:{ rewrite decide_False; [reflexivity|]. intros E0. apply app_inv_head in E0. congruence. }
          destruct (decide (i = TERM)) as [->|Hit].
          { destruct Hp as [[_ ->]|[? _]]; [|lia]. destruct Hq as [[_ ->]|[? _]]; [|lia]. rewrite decide_True by reflexivity. reflexivity. }
          destruct (decide (rp = r)) as [->|Hr]; [rewrite decide_True by reflexivity; reflexivity|].
          rewrite decide_False; [reflexivity|]. intros E0. apply app_inv_head in E0. congruence.
    - destruct Hs as [-> Hc]. cbv zeta. destruct Hw as (Hne & Hl & Hb & Hw).
      destruct (Nat.eqb_spec (common p k) (length k)) as [E|E].
      + rewrite E. apply common_len in E as (r & ->). rewrite drop_app. apply kp_app in Hp; [|exact Hl].
        destruct (IH c' c r v Hc Hw Hp) as (n' & t' & -> & Hd' & Hw' & Hne' & Hb' & Hlk); [|exact Hv|].
        { rewrite app_length in Hf. destruct k; [congruence|cbn in Hf; lia]. }
        exists (Ext k n'), (Ext k t'). split; [reflexivity|]. split; [apply den_self; split; [reflexivity|exact Hd']|].
        split; [split; [exact Hne|split; [exact Hl|split; [apply Hb', Hb|exact Hw']]]|]. split; [discriminate|]. split; [intros []|].
        intros q Hq. destruct (decide (k `prefix_of` q)) as [(s & ->)|Hnp].
        * rewrite !look_ext. apply kp_app in Hq; [|exact Hl]. rewrite (Hlk s Hq).
          destruct (decide (s = r)) as [->|Hsr]; [rewrite decide_True by reflexivity; reflexivity|].
          rewrite decide_False; [reflexivity|]. intros E0. apply app_inv_head in E0. congruence.
        * rewrite !look_ext_none by (intros s ->; apply Hnp; exists s; reflexivity).
          rewrite decide_False; [reflexivity|]. intros ->. apply Hnp. exists r. reflexivity.
      + destruct (common_spec p k) as (pre & rp & rk & -> & -> & Ec & Hdiff). rewrite Ec in *. rewrite take_app, !drop_app.
        rewrite app_length in E. destruct rk as [|j rk]; [cbn in E; lia|]. apply low_app in Hl as [Hpre Hl].
        apply kp_app in Hp; [|exact Hpre]. destruct rp as [|i rp]; [destruct (kp_nil Hp)|]. cbn [split_ext option_map].
        apply low_cons in Hl as [Hj Hl].
        assert (fits_at j (prefixed rk c)) as Fj.
        { left. split; [exact Hj|]. split; [apply prefixed_wf; assumption|]. destruct rk; [|discriminate]. cbn [prefixed].
          intros ->. exact Hb. }
        assert (fits_at i (Leaf rp v)) as Fi.
        { apply kp_cons in Hp as [[-> ->]|[Hi Hp]]; [right; eauto|left]. split; [exact Hi|]. split; [split; assumption|discriminate]. }
        exists (prefixed pre (fork j (prefixed rk c') i (Leaf rp v))), (prefixed pre (fork j (prefixed rk c) i (Leaf rp v))).
        split; [reflexivity|]. split.
        { apply prefixed_den, fork_den; [apply prefixed_den, Hc|apply den_self; split; reflexivity|congruence|intros ->; lia|].
          intros ->. apply kp_cons in Hp as [[_ ->]|[? _]]; [eauto|lia]. }
        split; [apply prefixed_wf; [exact Hpre|apply fork_branch|apply fork_wf; [congruence|assumption|assumption]]|]. split.
        { destruct pre; [|discriminate]. cbn [prefixed]. pose proof (fork_branch j (prefixed rk c) i (Leaf rp v)) as Hb2.
          intros E0. rewrite E0 in Hb2. exact Hb2. }
        split; [intros []|]. intros q Hq.
        destruct (decide (pre `prefix_of` q)) as [(r & ->)|Hnp].
        2:{ rewrite look_prefixed_none by (intros r ->; apply Hnp; exists r; reflexivity).
            rewrite look_ext_none; [|intros r E0; apply Hnp; exists ((j :: rk) ++ r); rewrite app_assoc; exact E0].
            rewrite decide_False; [reflexivity|]. intros ->. apply Hnp. exists (i :: rp). reflexivity. }
        rewrite look_prefixed. apply kp_app in Hq; [|exact Hpre]. destruct r as [|x r]; [destruct (kp_nil Hq)|].
        rewrite fork_look by (assumption || congruence). unfold look_at.
        destruct (decide (x = j)) as [->|Hxj].
        * rewrite (decide_False (P := pre ++ j :: r = _)) by (intros E0; apply app_inv_head in E0; congruence).
          rewrite decide_False by lia.
          destruct (decide (rk `prefix_of` r)) as [(s & ->)|Hnr].
          -- rewrite look_prefixed. replace (pre ++ j :: rk ++ s) with ((pre ++ j :: rk) ++ s) by (rewrite <- app_assoc; reflexivity).
             rewrite look_ext. reflexivity.
          -- rewrite look_prefixed_none by (intros s ->; apply Hnr; exists s; reflexivity). symmetry. apply look_ext_none.
             intros s E0. rewrite <- app_assoc in E0. apply app_inv_head in E0. cbn in E0. injection E0 as ->. apply Hnr. exists s. reflexivity.
        * rewrite look_ext_none.
          2:{ intros s E0. rewrite <- app_assoc in E0. apply app_inv_head in E0. cbn in E0. congruence. }
          destruct (decide (x = i)) as [->|Hxi].
          2:{ rewrite decide_False; [reflexivity|]. intros E0. apply app_inv_head in E0. congruence. }
          apply kp_cons in Hp. apply kp_cons in Hq. destruct (decide (i = TERM)) as [->|Hit].
          { destruct Hp as [[_ ->]|[? _]]; [|lia]. destruct Hq as [[_ ->]|[? _]]; [|lia]. rewrite decide_True by reflexivity. reflexivity. }
          cbn [look]. destruct (decide (rp = r)) as [->|Hr]; [rewrite decide_True by reflexivity; reflexivity|].
          rewrite decide_False; [reflexivity|]. intros E0. apply app_inv_head in E0. congruence.
    - destruct Hs as [-> Hc]. destruct p as [|i p]; [destruct (kp_nil Hp)|]. pose proof Hw as Hw0.
      apply wf_branch in Hw as (Hlen & Hw & (a & b & Hab & Ha & Hb) & Hws).
      destruct (Nat.eqb_spec i TERM) as [->|Hit].
      + apply kp_cons in Hp as [[_ ->]|[? _]]; [|lia]. exists (Branch cs (Some v)), (Branch ts (Some v)).
        split; [reflexivity|]. split; [apply den_self; split; [reflexivity|exact Hc]|]. split.
        { apply wf_branch. split; [exact Hlen|]. split; [congruence|]. split; [|exact Hws]. exists a, b. split; [exact Hab|].
          split; [destruct Ha as [[? _]|?]; [left; split; [assumption|discriminate]|right; assumption]|].
          destruct Hb as [[? _]|?]; [left; split; [assumption|discriminate]|right; assumption]. }
        split; [discriminate|]. split; [intros _; exact I|]. intros q Hq. destruct q as [|x q]; [destruct (kp_nil Hq)|]. rewrite !look_branch.
        apply kp_cons in Hq as [[-> ->]|[Hx Hq]]; [rewrite decide_True by reflexivity; reflexivity|].
        destruct (Nat.eqb_spec x TERM); [lia|]. rewrite decide_False by congruence. reflexivity.
      + apply kp_cons in Hp as [[? _]|[Hi Hp]]; [lia|].
        destruct (lookup_lt_is_Some_2 ts i) as [t Ht]; [lia|]. destruct (Forall2_lookup_l _ _ _ _ _ Hc Ht) as (c & Ec & Hct).
        rewrite nth_lookup, Ec. pose proof (Forall_lookup_1 _ _ _ _ Hws Ht) as Hwt.
        destruct (IH c t p v Hct Hwt Hp) as (n' & t' & -> & Hd' & Hw' & Hne' & _ & Hlk); [cbn in Hf; lia|exact Hv|].
        exists (Branch (<[i := n']> cs) w), (Branch (<[i := t']> ts) w). split; [reflexivity|].
        split; [apply den_self; split; [reflexivity|apply Forall2_insert; assumption]|]. split.
        { apply wf_branch. split; [rewrite insert_length; exact Hlen|]. split; [exact Hw|]. split.
          - exists a, b. split; [exact Hab|]. split; apply live_put; assumption.
          - apply Forall_insert; assumption. }
        split; [discriminate|]. split; [intros _; exact I|]. intros q Hq. destruct q as [|x q]; [destruct (kp_nil Hq)|]. rewrite !look_branch.
        apply kp_cons in Hq as [[-> ->]|[Hx Hq]]; [rewrite decide_False by congruence; reflexivity|].
        destruct (Nat.eqb_spec x TERM); [lia|]. rewrite !nth_lookup. destruct (decide (x = i)) as [->|Hxi].
        * rewrite list_lookup_insert by lia. rewrite Ht, (Hlk q Hq).
          destruct (decide (q = p)) as [->|Hqp]; [rewrite decide_True by reflexivity; reflexivity|rewrite decide_False by congruence; reflexivity].
        * rewrite list_lookup_insert_ne by congruence. rewrite decide_False by congruence. reflexivity.
  Qed.
End Den.
