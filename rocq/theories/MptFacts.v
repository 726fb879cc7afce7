(** * The trie as a map: what a node with its database stands for, that reading
    and inserting are those of a map, and that a map has one canonical tree. *)
From Verif Require Import Base BaseFacts Types Rlp Mpt.
Local Open Scope nat_scope.

Lemma node_ind' (P : node -> Prop) :
  P Empty -> (forall k v, P (Leaf k v)) -> (forall k c, P c -> P (Ext k c)) ->
  (forall cs v, Forall P cs -> P (Branch cs v)) -> (forall h, P (HashN h)) -> forall n, P n.
Proof.
  intros H1 H2 H3 H4 H5. fix IH 1. intros [|k v|k c|cs v|h]; [exact H1|apply H2|apply H3, IH| |apply H5].
  apply H4. induction cs as [|c cs IHc]; constructor; [apply IH|exact IHc].
Qed.

Lemma nth_lookup {A} (l : list A) i : nth_error l i = l !! i.
Proof. revert i. induction l as [|x l IH]; intros [|i]; cbn; try reflexivity. apply IH. Qed.

(** ** Paths *)
Definition low (q : nibs) : Prop := Forall (fun x => x < 16) q.
(** a complete path: nibbles and the terminator *)
Definition kp (p : nibs) : Prop := exists q, p = q ++ [TERM] /\ low q.

Lemma low_app a b : low (a ++ b) <-> low a /\ low b.
Proof. apply Forall_app. Qed.
Lemma low_cons x a : low (x :: a) <-> x < 16 /\ low a.
Proof. apply Forall_cons_iff. Qed.
Lemma kp_nil : ~ kp [].
Proof. intros (q & E & _). destruct q; discriminate. Qed.
Lemma kp_term : kp [TERM].
Proof. exists []. split; [reflexivity|constructor]. Qed.
Lemma kp_cons x p : kp (x :: p) <-> (x = TERM /\ p = []) \/ (x < 16 /\ kp p).
Proof.
  split.
  - intros (q & E & Hq). destruct q as [|y q]; cbn in E; injection E as -> ->; [left; auto|right].
    apply low_cons in Hq as [Hy Hq]. split; [exact Hy|]. exists q. auto.
  - intros [[-> ->]|[Hx (q & -> & Hq)]]; [apply kp_term|]. exists (x :: q). split; [reflexivity|]. apply low_cons. auto.
Qed.
Lemma kp_app a p : low a -> kp (a ++ p) <-> kp p.
Proof.
  induction a as [|x a IH]; intros Ha; [reflexivity|]. apply low_cons in Ha as [Hx Ha]. cbn [app]. rewrite kp_cons, IH by exact Ha.
  split; [intros [[-> _]|[_ H]]; [lia|exact H]|]. intros H. right. auto.
Qed.

Lemma common_spec a b : exists c ra rb, a = c ++ ra /\ b = c ++ rb /\ common a b = length c /\
  match ra, rb with x :: _, y :: _ => x <> y | _, _ => True end.
Proof.
  revert b. induction a as [|x a IH]; intros b.
  - exists [], [], b. cbn. auto.
  - destruct b as [|y b]; [exists [], (x :: a), []; cbn; auto|]. cbn [common]. destruct (Nat.eqb_spec x y) as [->|Hne].
    + destruct (IH b) as (c & ra & rb & -> & -> & E & Hd). exists (y :: c), ra, rb. cbn. auto.
    + exists [], (x :: a), (y :: b). cbn. auto.
Qed.
Lemma common_full a b : common (a ++ b) a = length a.
Proof. induction a as [|x a IH]; [destruct b; reflexivity|]. cbn. rewrite Nat.eqb_refl, IH. reflexivity. Qed.
Lemma common_len p k : common p k = length k <-> exists r, p = k ++ r.
Proof.
  split.
  - destruct (common_spec p k) as (c & ra & rb & -> & -> & -> & _). intros E. rewrite app_length in E.
    destruct rb; [|cbn in E; lia]. exists ra. rewrite app_nil_r. reflexivity.
  - intros (r & ->). apply common_full.
Qed.
(** Of two complete paths, neither continues the other. *)
Lemma kp_prefix p k r : kp k -> kp p -> p = k ++ r -> p = k.
Proof.
  intros (q & -> & Hq) (q' & -> & Hq') E. rewrite <- app_assoc in E. cbn in E.
  assert (r = []) as ->; [|rewrite E; reflexivity].
  revert q' Hq' E. induction q as [|x q IH]; intros q' Hq' E; cbn in E.
  - destruct q' as [|y q']; cbn in E; [injection E as <-; reflexivity|]. injection E as -> _. apply low_cons in Hq' as [Hq' _]. lia.
  - apply low_cons in Hq as [Hx Hq]. destruct q' as [|y q']; cbn in E; [injection E as E0 _; lia|].
    injection E as -> E. apply low_cons in Hq'. apply (IH Hq q'); [tauto|exact E].
Qed.

(** ** What a tree holds *)
Fixpoint look (n : node) (p : nibs) : option bytes :=
  match n with
  | Empty | HashN _ => None
  | Leaf k v => if decide (k = p) then Some v else None
  | Ext k c => if common p k =? length k then look c (drop (length k) p) else None
  | Branch cs v =>
      match p with
      | [] => v
      | i :: p' =>
          if i =? TERM then v
          else (fix at_ cs i {struct cs} :=
                  match cs with
                  | [] => None
                  | c :: r => match i with O => look c p' | S i' => at_ r i' end
                  end) cs i
      end
  end.
Lemma look_branch cs v i p : look (Branch cs v) (i :: p) =
  if i =? TERM then v else match nth_error cs i with Some c => look c p | None => None end.
Proof.
  cbn [look]. destruct (i =? TERM); [reflexivity|]. revert i. induction cs as [|c cs IH]; intros [|i]; cbn; try reflexivity. apply IH.
Qed.
Lemma look_ext k c p : look (Ext k c) (k ++ p) = look c p.
Proof. cbn [look]. rewrite common_full, Nat.eqb_refl, drop_app. reflexivity. Qed.
Lemma look_ext_none k c p : (forall r, p <> k ++ r) -> look (Ext k c) p = None.
Proof.
  intros H. cbn [look]. destruct (Nat.eqb_spec (common p k) (length k)) as [E|]; [|reflexivity].
  apply common_len in E as (r & ->). destruct (H r eq_refl).
Qed.
Lemma look_prefixed k c p : look (prefixed k c) (k ++ p) = look c p.
Proof. destruct k; [reflexivity|]. apply look_ext. Qed.
Lemma look_prefixed_none k c p : (forall r, p <> k ++ r) -> look (prefixed k c) p = None.
Proof. destruct k; [intros H; destruct (H p eq_refl)|]. apply look_ext_none. Qed.

Definition is_branch (n : node) : Prop := match n with Branch _ _ => True | _ => False end.
Definition is_empty_node (n : node) : Prop := match n with Empty => True | _ => False end.
(** Something hangs at [i] below a branch. *)
Definition live (cs : list node) (v : option bytes) (i : nat) : Prop :=
  (i = TERM /\ v <> None) \/ (i < 16 /\ exists c, nth_error cs i = Some c /\ c <> Empty).

(** Canonical trees, without unloaded nodes *)
Fixpoint wf (n : node) : Prop :=
  match n with
  | Empty => True
  | Leaf k v => kp k /\ v <> []
  | Ext k c => k <> [] /\ low k /\ is_branch c /\ wf c
  | Branch cs v =>
      length cs = 16 /\ v <> Some [] /\ (exists i j, i <> j /\ live cs v i /\ live cs v j) /\
      fold_right (fun c P => wf c /\ P) True cs
  | HashN _ => False
  end.
Lemma wf_children cs : fold_right (fun c P => wf c /\ P) True cs <-> Forall wf cs.
Proof. induction cs as [|c cs IH]; cbn; [split; constructor|]. rewrite IH, Forall_cons_iff. reflexivity. Qed.
Lemma wf_branch cs v : wf (Branch cs v) <->
  length cs = 16 /\ v <> Some [] /\ (exists i j, i <> j /\ live cs v i /\ live cs v j) /\ Forall wf cs.
Proof. cbn [wf]. rewrite wf_children. reflexivity. Qed.
Lemma wf_child cs v i c : wf (Branch cs v) -> nth_error cs i = Some c -> wf c.
Proof.
  intros H E. apply wf_branch in H as (_ & _ & _ & H). eapply Forall_forall in H; [exact H|].
  apply elem_of_list_In. exact (nth_error_In _ _ E).
Qed.

(** Whatever hangs below a branch has a key. *)
Lemma wf_some n : wf n -> n <> Empty -> exists p v, kp p /\ look n p = Some v.
Proof.
  induction n as [|k v|k c IH|cs v IH|h] using node_ind'; intros Hw Hne; [congruence| | | |destruct Hw].
  - destruct Hw as [Hk Hv]. exists k, v. split; [exact Hk|]. cbn. rewrite decide_True; reflexivity.
  - destruct Hw as (Hk & Hl & Hb & Hw). destruct IH as (p & v & Hp & E); [exact Hw|destruct c; [destruct Hb|discriminate..]|].
    exists (k ++ p), v. split; [apply kp_app; assumption|]. rewrite look_ext. exact E.
  - pose proof Hw as Hw'. apply wf_branch in Hw as (Hlen & Hv & (i & j & _ & [[-> Hi]|(Hi & c & Hc & Hc')] & _) & Hws).
    + destruct v as [v|]; [|congruence]. exists [TERM], v. split; [apply kp_term|]. rewrite look_branch. reflexivity.
    + eapply Forall_forall in IH; [|apply elem_of_list_In; exact (nth_error_In _ _ Hc)].
      destruct IH as (p & w & Hp & E); [exact (wf_child _ _ _ _ Hw' Hc)|exact Hc'|].
      exists (i :: p), w. split; [apply kp_cons; right; auto|]. rewrite look_branch.
      destruct (Nat.eqb_spec i TERM); [lia|]. rewrite Hc. exact E.
Qed.
Lemma live_some cs v i : wf (Branch cs v) -> live cs v i -> exists p w, kp (i :: p) /\ look (Branch cs v) (i :: p) = Some w.
Proof.
  intros Hw [[-> Hi]|(Hi & c & Hc & Hc')].
  - destruct v as [v|]; [|congruence]. exists [], v. split; [apply kp_term|]. rewrite look_branch. reflexivity.
  - destruct (wf_some c (wf_child _ _ _ _ Hw Hc) Hc') as (p & w & Hp & E). exists p, w. split; [apply kp_cons; auto|].
    rewrite look_branch. destruct (Nat.eqb_spec i TERM); [lia|]. rewrite Hc. exact E.
Qed.
Lemma branch_two n : wf n -> is_branch n -> exists i j p q v w, i <> j /\ kp (i :: p) /\ kp (j :: q) /\
  look n (i :: p) = Some v /\ look n (j :: q) = Some w.
Proof.
  destruct n as [| | |cs v|]; [intros _ []|intros _ []|intros _ []| |intros _ []]. intros Hw _. pose proof Hw as Hw'. apply wf_branch in Hw as (_ & _ & (i & j & Hij & Hi & Hj) & _).
  destruct (live_some _ _ _ Hw' Hi) as (p & x & ? & ?). destruct (live_some _ _ _ Hw' Hj) as (q & y & ? & ?).
  exists i, j, p, q, x, y. auto.
Qed.

(** A map has one canonical tree. *)
Theorem look_unique t1 : forall t2, wf t1 -> wf t2 -> (forall p, kp p -> look t1 p = look t2 p) -> t1 = t2.
Proof.
  induction t1 as [|k v|k c IH|cs v IH|h] using node_ind'; intros t2 H1 H2 He; [| | | |destruct H1].
  - destruct t2 as [| | | |]; [reflexivity| | | |destruct H2]; exfalso;
      (match type of H2 with wf ?n => destruct (wf_some n H2) as (p & v' & Hp & E); [discriminate|]; rewrite <- (He p Hp) in E; discriminate end).
  - destruct H1 as [Hk Hv].
    assert (forall p w, kp p -> look t2 p = Some w -> p = k) as Hone.
    { intros p w Hp E. rewrite <- (He p Hp) in E. cbn in E. destruct (decide (k = p)); [congruence|discriminate]. }
    assert (look t2 k = Some v) as Ek. { rewrite <- (He k Hk). cbn. rewrite decide_True; reflexivity. }
    destruct t2 as [|k' v'|k' c'|cs' v'|]; [discriminate Ek| | | |destruct H2].
    + cbn in Ek. destruct (decide (k' = k)) as [->|]; [|discriminate]. injection Ek as ->. reflexivity.
    + exfalso. destruct H2 as (Hne & Hl & Hb & Hw). destruct (branch_two c' Hw Hb) as (i & j & p & q & x & y & Hij & Hp & Hq & Ei & Ej).
      assert (k' ++ i :: p = k' ++ j :: q) as E.
      { transitivity k; [|symmetry]; eapply Hone; try (apply kp_app; assumption); rewrite look_ext; eassumption. }
      apply app_inv_head in E. congruence.
    + exfalso. destruct (branch_two _ H2 I) as (i & j & p & q & x & y & Hij & Hp & Hq & Ei & Ej).
      assert (i :: p = j :: q) as E by (rewrite (Hone _ _ Hp Ei), (Hone _ _ Hq Ej); reflexivity). congruence.
  - destruct H1 as (Hne & Hl & Hb & Hw).
    destruct (branch_two c Hw Hb) as (i & j & p & q & x & y & Hij & Hp & Hq & Ei & Ej).
    assert (look t2 (k ++ i :: p) = Some x) as Fi by (rewrite <- He by (apply kp_app; assumption); rewrite look_ext; exact Ei).
    assert (look t2 (k ++ j :: q) = Some y) as Fj by (rewrite <- He by (apply kp_app; assumption); rewrite look_ext; exact Ej).
    destruct t2 as [|k' v'|k' c'|cs' v'|]; [discriminate Fi| | | |destruct H2].
    + exfalso. cbn in Fi, Fj. destruct (decide (k' = k ++ i :: p)) as [E|]; [|discriminate].
      destruct (decide (k' = k ++ j :: q)) as [E'|]; [|discriminate]. rewrite E in E'. apply app_inv_head in E'. congruence.
    + destruct H2 as (Hne' & Hl' & Hb' & Hw').
      assert (forall r, kp r -> forall w, look (Ext k' c') r = Some w -> exists r', r = k' ++ r') as Hpre.
      { intros r _ w E. cbn in E. destruct (Nat.eqb_spec (common r k') (length k')) as [E'|]; [|discriminate].
        apply common_len in E'. exact E'. }
      assert (k = k') as <-.
      { destruct (Hpre _ (proj2 (kp_app _ _ Hl) Hp) _ Fi) as (ri & Eri). destruct (Hpre _ (proj2 (kp_app _ _ Hl) Hq) _ Fj) as (rj & Erj).
        assert (exists s, k = k' ++ s) as (s & ->).
        { clear -Eri Erj Hij. revert k' Eri Erj. induction k as [|z k IHk]; intros k' Eri Erj.
          - destruct k' as [|z' k']; [exists []; reflexivity|]. cbn in Eri, Erj. congruence.
          - destruct k' as [|z' k']; [exists (z :: k); reflexivity|]. cbn in Eri, Erj. injection Eri as -> Eri. injection Erj as Erj.
            destruct (IHk k' Eri Erj) as (s & ->). exists s. reflexivity. }
        destruct s as [|z s]; [apply app_nil_r|]. exfalso.
        destruct (branch_two c' Hw' Hb') as (i' & j' & p' & q' & x' & y' & Hij' & Hp' & Hq' & Ei' & Ej').
        assert (forall r w, kp r -> look c' r = Some w -> exists r', r = z :: s ++ r') as Hz.
        { intros r w Hr E.
          assert (look (Ext (k' ++ z :: s) c) (k' ++ r) = Some w) as G.
          { rewrite He by (apply kp_app; assumption). rewrite look_ext. exact E. }
          cbn [look] in G. destruct (Nat.eqb_spec (common (k' ++ r) (k' ++ z :: s)) (length (k' ++ z :: s))) as [E'|]; [|discriminate].
          apply common_len in E' as (r' & E'). rewrite <- app_assoc in E'. apply app_inv_head in E'. exists r'. exact E'. }
        destruct (Hz _ _ Hp' Ei') as (? & E1). destruct (Hz _ _ Hq' Ej') as (? & E2). congruence. }
      f_equal. apply IH; [exact Hw|exact Hw'|]. intros r Hr. specialize (He (k ++ r) (proj2 (kp_app _ _ Hl) Hr)).
      rewrite !look_ext in He. exact He.
    + exfalso. destruct (branch_two _ H2 I) as (i' & j' & p' & q' & x' & y' & Hij' & Hp' & Hq' & Ei' & Ej').
      rewrite <- He in Ei' by exact Hp'. rewrite <- He in Ej' by exact Hq'. cbn [look] in Ei', Ej'.
      destruct (Nat.eqb_spec (common (i' :: p') k) (length k)) as [E1|]; [|discriminate].
      destruct (Nat.eqb_spec (common (j' :: q') k) (length k)) as [E2|]; [|discriminate].
      apply common_len in E1 as (r1 & E1). apply common_len in E2 as (r2 & E2). destruct k; [congruence|]. cbn in E1, E2. congruence.
  - destruct (branch_two _ H1 I) as (i & j & p & q & x & y & Hij & Hp & Hq & Ei & Ej).
    assert (look t2 (i :: p) = Some x) as Fi by (rewrite <- He by exact Hp; exact Ei).
    assert (look t2 (j :: q) = Some y) as Fj by (rewrite <- He by exact Hq; exact Ej).
    destruct t2 as [|k' v'|k' c'|cs' v'|]; [discriminate Fi| | | |destruct H2].
    + exfalso. cbn in Fi, Fj. destruct (decide (k' = i :: p)) as [E|]; [|discriminate]. destruct (decide (k' = j :: q)) as [E'|]; [|discriminate]. congruence.
    + exfalso. destruct H2 as (Hne & Hl & Hb & Hw). cbn [look] in Fi, Fj.
      destruct (Nat.eqb_spec (common (i :: p) k') (length k')) as [E1|]; [|discriminate].
      destruct (Nat.eqb_spec (common (j :: q) k') (length k')) as [E2|]; [|discriminate].
      apply common_len in E1 as (r1 & E1). apply common_len in E2 as (r2 & E2). destruct k'; [congruence|]. cbn in E1, E2. congruence.
    + pose proof H1 as H1'. pose proof H2 as H2'. apply wf_branch in H1 as (L1 & _ & _ & W1). apply wf_branch in H2 as (L2 & _ & _ & W2). f_equal.
      * apply list_eq. intros n. destruct (decide (n < 16)) as [Hn|Hn].
        2:{ rewrite !lookup_ge_None_2 by lia. reflexivity. }
        destruct (lookup_lt_is_Some_2 cs n) as [c Hc]; [lia|]. destruct (lookup_lt_is_Some_2 cs' n) as [c' Hc']; [lia|]. rewrite Hc, Hc'. f_equal.
        eapply Forall_lookup_1 in IH; [|exact Hc]. eapply Forall_lookup_1 in W1; [|exact Hc]. eapply Forall_lookup_1 in W2; [|exact Hc'].
        apply IH; [exact W1|exact W2|]. intros r Hr. specialize (He (n :: r) ltac:(apply kp_cons; auto)). rewrite !look_branch in He.
        destruct (Nat.eqb_spec n TERM); [lia|]. rewrite !nth_lookup, Hc, Hc' in He. exact He.
      * specialize (He [TERM] kp_term). rewrite !look_branch in He. exact He.
Qed.
