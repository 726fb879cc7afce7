From Coq Require Import List Bool NArith Lia ZifyNat ZifyN.
From stdpp Require Import base decidable list gmap.
From Verif Require Import Base Endpoint RpcMap.
Import ListNotations.
Local Open Scope N_scope.

Section Facts.
  Context {V : Type}.
  Notation rstate := (rstate V).
  Notation call := (call V).
  Notation revent := (revent V).

  Lemma lookup_snoc_Some {A} (l : list A) x n y : (l ++ [x]) !! n = Some y ->
    ((n < length l)%nat /\ l !! n = Some y) \/ (n = length l /\ x = y).
  Proof.
    intros H. apply lookup_app_Some in H as [H|[H1 H2]].
    - left. split; [apply lookup_lt_Some in H|]; exact H.
    - right. destruct (n - length l)%nat eqn:E; [|discriminate]. cbn in H2. injection H2 as <-. split; [lia|reflexivity].
  Qed.

  Record rinv (s : rstate) : Prop := {
    i_entry : forall sid r sd, entries (st_map s) !! (sid, r) = Some sd ->
      exists c, st_calls s !! snd_call sd = Some c /\ c_sid c = sid /\ u64v (c_rid c) = r /\ c_ty c = snd_ty sd /\
        (c_st c = CWait (c_rid c) \/ c_st c = CGone (c_rid c));
    i_wait : forall n c rid, st_calls s !! n = Some c -> c_st c = CWait rid ->
      entries (st_map s) !! (c_sid c, u64v rid) = Some (Sender (c_ty c) n);
    i_done : forall n c rid v t, st_calls s !! n = Some c -> c_st c = CDone rid v t ->
      st_resps s !! t = Some (Resp (c_sid c) rid (c_ty c) v false);
    i_once : forall n c rid v n' c' rid' v' t,
      st_calls s !! n = Some c -> c_st c = CDone rid v t ->
      st_calls s !! n' = Some c' -> c_st c' = CDone rid' v' t -> n = n';
    i_next : u64v (next_id (st_map s)) = N.of_nat (length (st_calls s)) mod two64;
    i_ids : forall n c, st_calls s !! n = Some c -> u64v (c_rid c) = N.of_nat n mod two64 }.

  Lemma rinv_init : rinv rinit.
  Proof.
    constructor; cbn [rinit st_map st_calls st_resps rm_new entries next_id].
    - intros sid r sd. rewrite lookup_empty. discriminate.
    - intros n c rid H. rewrite lookup_nil in H. discriminate.
    - intros n c rid v t H. rewrite lookup_nil in H. discriminate.
    - intros n c rid v n' c' rid' v' t H. rewrite lookup_nil in H. discriminate.
    - reflexivity.
    - intros n c H. rewrite lookup_nil in H. discriminate.
  Qed.

  Lemma drop_sender_length (l : list call) o : length (drop_sender l o) = length l.
  Proof.
    unfold drop_sender. destruct o as [sd|]; [|reflexivity]. destruct (l !! snd_call sd) as [c|]; [|reflexivity].
    destruct (c_st c); try reflexivity. apply insert_length.
  Qed.
  Lemma send_to_length (l : list call) sd v t : length (send_to l sd v t) = length l.
  Proof.
    unfold send_to. destruct (l !! snd_call sd) as [c|]; [|reflexivity].
    destruct (c_st c); try reflexivity. apply insert_length.
  Qed.

  (** A call after its sender was dropped / used. *)
  Lemma drop_sender_lookup (l : list call) sd n c : drop_sender l (Some sd) !! n = Some c ->
    l !! n = Some c /\ (n = snd_call sd -> forall r, c_st c <> CWait r) \/
    n = snd_call sd /\ exists c0 r, l !! n = Some c0 /\ c_st c0 = CWait r /\ c = set_st c0 (CDropped r).
  Proof.
    unfold drop_sender. destruct (l !! snd_call sd) as [c0|] eqn:E0.
    - destruct (c_st c0) as [r|r|r|r|r v t] eqn:Est.
      2:{ intros H. apply list_lookup_insert_Some in H as [(<- & <- & _)|(Hne & H)].
          - right. split; [reflexivity|]. exists c0, r. repeat split; assumption.
          - left. split; [exact H|]. intros ->. destruct (Hne eq_refl). }
      all: intros H; left; split; [exact H|]; intros -> r'; rewrite E0 in H; injection H as <-; rewrite Est; discriminate.
    - intros H. left. split; [exact H|]. intros ->. congruence.
  Qed.
  Lemma send_to_lookup (l : list call) sd v t n c : send_to l sd v t !! n = Some c ->
    l !! n = Some c /\ (n = snd_call sd -> forall r, c_st c <> CWait r) \/
    n = snd_call sd /\ exists c0 r, l !! n = Some c0 /\ c_st c0 = CWait r /\ c = set_st c0 (CDone r v t).
  Proof.
    unfold send_to. destruct (l !! snd_call sd) as [c0|] eqn:E0.
    - destruct (c_st c0) as [r|r|r|r|r v' t'] eqn:Est.
      2:{ intros H. apply list_lookup_insert_Some in H as [(<- & <- & _)|(Hne & H)].
          - right. split; [reflexivity|]. exists c0, r. repeat split; assumption.
          - left. split; [exact H|]. intros ->. destruct (Hne eq_refl). }
      all: intros H; left; split; [exact H|]; intros -> r'; rewrite E0 in H; injection H as <-; rewrite Est; discriminate.
    - intros H. left. split; [exact H|]. intros ->. congruence.
  Qed.
  Lemma drop_sender_other (l : list call) sd n : n <> snd_call sd -> drop_sender l (Some sd) !! n = l !! n.
  Proof.
    intros Hn. unfold drop_sender. destruct (l !! snd_call sd) as [c0|]; [|reflexivity].
    destruct (c_st c0); try reflexivity. apply list_lookup_insert_ne. congruence.
  Qed.
  Lemma send_to_other (l : list call) sd v t n : n <> snd_call sd -> send_to l sd v t !! n = l !! n.
  Proof.
    intros Hn. unfold send_to. destruct (l !! snd_call sd) as [c0|]; [|reflexivity].
    destruct (c_st c0); try reflexivity. apply list_lookup_insert_ne. congruence.
  Qed.
  Lemma drop_sender_wait (l : list call) sd c r : l !! snd_call sd = Some c -> c_st c = CWait r ->
    drop_sender l (Some sd) !! snd_call sd = Some (set_st c (CDropped r)).
  Proof.
    intros H1 H2. unfold drop_sender. rewrite H1, H2. apply list_lookup_insert. apply lookup_lt_Some in H1. exact H1.
  Qed.
  Lemma send_to_wait (l : list call) sd v t c r : l !! snd_call sd = Some c -> c_st c = CWait r ->
    send_to l sd v t !! snd_call sd = Some (set_st c (CDone r v t)).
  Proof.
    intros H1 H2. unfold send_to. rewrite H1, H2. apply list_lookup_insert. apply lookup_lt_Some in H1. exact H1.
  Qed.

  Lemma entry_wait s sid r sd : rinv s -> entries (st_map s) !! (sid, r) = Some sd ->
    forall n c rid, st_calls s !! n = Some c -> c_st c = CWait rid -> c_sid c = sid -> u64v rid = r -> n = snd_call sd.
  Proof.
    intros Hi He n c rid Hc Hw Hs Hr. pose proof (i_wait s Hi n c rid Hc Hw) as H. rewrite Hs, Hr in H.
    rewrite He in H. injection H as ->. reflexivity.
  Qed.

  Lemma c_rid_set (c : call) st : c_rid (set_st c st) =
    match st with CHasId r | CWait r | CGone r | CDropped r | CDone r _ _ => r end.
  Proof. reflexivity. Qed.
  Lemma c_rid_eq (c : call) r : c_st c = CWait r -> c_rid c = r.
  Proof. unfold c_rid. intros ->. reflexivity. Qed.

  (** What [EvTake] does to the list of calls. *)
  Definition taken (s : rstate) (r : resp V) (t : nat) : list call :=
    match entries (st_map s) !! (r_sid r, u64v (r_rid r)) with
    | Some sd => if Nat.eqb (snd_ty sd) (r_ty r) then send_to (st_calls s) sd (r_val r) t
                 else drop_sender (st_calls s) (Some sd)
    | None => st_calls s
    end.

  Lemma rstep_take s t s' : rstep s (EvTake t) = Some s' ->
    exists r, st_resps s !! t = Some r /\ r_live r = true /\
      s' = RState (RpcMap (next_id (st_map s)) (delete (r_sid r, u64v (r_rid r)) (entries (st_map s))))
             (taken s r t) (<[t := kill r]> (st_resps s)).
  Proof.
    cbn [rstep]. destruct (st_resps s !! t) as [r|]; [|discriminate]. destruct (r_live r) eqn:El; [|discriminate].
    intros [= <-]. exists r. split; [reflexivity|]. split; [exact El|]. reflexivity.
  Qed.

  Lemma taken_length s r t : length (taken s r t) = length (st_calls s).
  Proof.
    unfold taken. destruct (entries (st_map s) !! (r_sid r, u64v (r_rid r))) as [sd|]; [|reflexivity].
    destruct (Nat.eqb _ _); [apply send_to_length|apply drop_sender_length].
  Qed.

  (** After a take, a call is as before and does not wait for that key, or it
      is the one that waited for it. *)
  Lemma taken_lookup s r t n c' : rinv s -> taken s r t !! n = Some c' ->
    (st_calls s !! n = Some c' /\ (c_sid c' = r_sid r -> c_st c' <> CWait (r_rid r))) \/
    exists c, st_calls s !! n = Some c /\ c_sid c = r_sid r /\ c_st c = CWait (r_rid r) /\
      ((c_ty c = r_ty r /\ c' = set_st c (CDone (r_rid r) (r_val r) t)) \/
       (c_ty c <> r_ty r /\ c' = set_st c (CDropped (r_rid r)))).
  Proof.
    intros Hi. unfold taken. destruct (entries (st_map s) !! (r_sid r, u64v (r_rid r))) as [sd|] eqn:E.
    - destruct (i_entry s Hi _ _ _ E) as (c0 & Hc0 & Hs0 & Hr0 & Ht0 & Hst0).
      apply u64_eq in Hr0.
      assert (G : forall c1 : call, st_calls s !! n = Some c1 -> (n = snd_call sd -> forall r, c_st c1 <> CWait r) ->
                  c_sid c1 = r_sid r -> c_st c1 <> CWait (r_rid r)).
      { intros c1 H1 H2 H3 H4. assert (n = snd_call sd) by (eapply entry_wait; eauto). apply (H2 H _ H4). }
      destruct (Nat.eqb (snd_ty sd) (r_ty r)) eqn:Et.
      + apply Nat.eqb_eq in Et. intros H. apply send_to_lookup in H as [[H1 H2]|(-> & c & rr & Hc & Hw & ->)].
        * left. split; [exact H1|]. apply G; assumption.
        * right. rewrite Hc0 in Hc. injection Hc as <-. exists c0.
          assert (rr = r_rid r) as -> by (rewrite <- Hr0; symmetry; apply c_rid_eq, Hw).
          split; [exact Hc0|]. split; [exact Hs0|]. split; [exact Hw|]. left. split; [congruence|reflexivity].
      + apply Nat.eqb_neq in Et. intros H. apply drop_sender_lookup in H as [[H1 H2]|(-> & c & rr & Hc & Hw & ->)].
        * left. split; [exact H1|]. apply G; assumption.
        * right. rewrite Hc0 in Hc. injection Hc as <-. exists c0.
          assert (rr = r_rid r) as -> by (rewrite <- Hr0; symmetry; apply c_rid_eq, Hw).
          split; [exact Hc0|]. split; [exact Hs0|]. split; [exact Hw|]. right. split; [congruence|reflexivity].
    - intros H. left. split; [exact H|]. intros Hs Hw. pose proof (i_wait s Hi n c' _ H Hw) as He.
      rewrite Hs, E in He. discriminate.
  Qed.

  Lemma taken_other s r t n c : rinv s -> st_calls s !! n = Some c ->
    ~ (c_sid c = r_sid r /\ c_st c = CWait (r_rid r)) -> taken s r t !! n = Some c.
  Proof.
    intros Hi Hc Hno. destruct (taken s r t !! n) as [c'|] eqn:E.
    - destruct (taken_lookup s r t n c' Hi E) as [[H _]|(c1 & H & Hs & Hw & _)]; [congruence|].
      rewrite Hc in H. injection H as <-. destruct Hno; split; assumption.
    - apply lookup_ge_None in E. rewrite taken_length in E. apply lookup_lt_Some in Hc. lia.
  Qed.

  Lemma rinv_step s e s' : rinv s -> rstep s e = Some s' -> rinv s'.
  Proof.
    intros Hi. destruct e as [sid ty|n|n|sid rid ty v|t].
    - (* EvNext *)
      cbn [rstep rm_next]. intros [= <-]. constructor; cbn [st_map st_calls st_resps entries next_id].
      + intros sid' r sd He. destruct (i_entry s Hi _ _ _ He) as (c & Hc & H). exists c. split; [|exact H].
        apply lookup_app_l_Some, Hc.
      + intros n c rid Hc Hw. apply lookup_snoc_Some in Hc as [[_ Hc]|[_ <-]]; [|discriminate Hw].
        apply (i_wait s Hi n c rid Hc Hw).
      + intros n c rid v t Hc Hw. apply lookup_snoc_Some in Hc as [[_ Hc]|[_ <-]]; [|discriminate Hw].
        apply (i_done s Hi n c rid v t Hc Hw).
      + intros n c rid v n' c' rid' v' t Hc Hw Hc' Hw'.
        apply lookup_snoc_Some in Hc as [[_ Hc]|[_ <-]]; [|discriminate Hw].
        apply lookup_snoc_Some in Hc' as [[_ Hc']|[_ <-]]; [|discriminate Hw'].
        eapply (i_once s Hi); eauto.
      + rewrite app_length. cbn [length wrap64 u64v]. rewrite (i_next s Hi).
        rewrite N.add_mod_idemp_l by discriminate. f_equal. lia.
      + intros n c Hc. apply lookup_snoc_Some in Hc as [[_ Hc]|[-> <-]]; [apply (i_ids s Hi n c Hc)|].
        cbn. apply (i_next s Hi).
    - (* EvInsert *)
      cbn [rstep]. destruct (st_calls s !! n) as [c|] eqn:Hc; [|discriminate].
      destruct (c_st c) as [rid|?|?|?|? ? ?] eqn:Hst; try discriminate.
      intros [= <-].
      assert (Hrid : c_rid c = rid) by (unfold c_rid; rewrite Hst; reflexivity).
      set (o := entries (st_map s) !! (c_sid c, u64v rid)).
      assert (Hlook : forall m c', (<[n:=set_st c (CWait rid)]> (drop_sender (st_calls s) o)) !! m = Some c' ->
        (m = n /\ c' = set_st c (CWait rid)) \/
        (m <> n /\ st_calls s !! m = Some c' /\ (c_sid c' = c_sid c -> c_st c' <> CWait rid)) \/
        (m <> n /\ exists c0, st_calls s !! m = Some c0 /\ c_st c0 = CWait rid /\ c_sid c0 = c_sid c /\ c' = set_st c0 (CDropped rid))).
      { intros m c' H. apply list_lookup_insert_Some in H as [(<- & <- & _)|(Hne & H)]; [left; split; reflexivity|].
        right. unfold o in H. destruct (entries (st_map s) !! (c_sid c, u64v rid)) as [sd|] eqn:E.
        - destruct (i_entry s Hi _ _ _ E) as (c0 & Hc0 & Hs0 & Hr0 & Ht0 & Hst0). apply u64_eq in Hr0.
          apply drop_sender_lookup in H as [[H1 H2]|(-> & c1 & rr & Hc1 & Hw & ->)].
          + left. split; [congruence|]. split; [exact H1|]. intros Hs Hw. assert (m = snd_call sd) by (eapply entry_wait; eauto).
            apply (H2 H _ Hw).
          + right. split; [congruence|]. rewrite Hc0 in Hc1. injection Hc1 as <-. exists c0.
            assert (rr = rid) as -> by (rewrite <- Hr0; symmetry; apply c_rid_eq, Hw). repeat split; assumption.
        - left. split; [congruence|]. split; [exact H|]. intros Hs Hw. pose proof (i_wait s Hi m c' _ H Hw) as He. rewrite Hs in He. congruence. }
      constructor; cbn [st_map st_calls st_resps rm_insert entries next_id].
      + intros sid r sd He. apply lookup_insert_Some in He as [[[= <- <-] <-]|[Hne He]].
        * exists (set_st c (CWait rid)). cbn [snd_call snd_ty]. split.
          -- apply list_lookup_insert. rewrite drop_sender_length. apply lookup_lt_Some in Hc. exact Hc.
          -- repeat split. left. reflexivity.
        * destruct (i_entry s Hi _ _ _ He) as (c0 & Hc0 & Hs0 & Hr0 & Ht0 & Hst0).
          exists c0. split; [|repeat split; assumption].
          rewrite list_lookup_insert_ne.
          -- unfold o. destruct (entries (st_map s) !! (c_sid c, u64v rid)) as [sd'|] eqn:E; [|exact Hc0].
             rewrite drop_sender_other; [exact Hc0|]. intros Heq.
             destruct (i_entry s Hi _ _ _ E) as (c1 & Hc1 & Hs1 & Hr1 & _). apply Hne.
             rewrite <- Heq, Hc0 in Hc1. injection Hc1 as <-. congruence.
          -- intros Heq. rewrite <- Heq, Hc in Hc0. injection Hc0 as <-. destruct Hst0; congruence.
      + intros m c' rid' Hm Hw. destruct (Hlook m c' Hm) as [[-> ->]|[(Hne & H & Hno)|(Hne & c0 & H0 & _ & _ & ->)]].
        * cbn in Hw. injection Hw as <-. cbn [set_st c_sid c_ty]. apply lookup_insert.
        * rewrite lookup_insert_ne; [apply (i_wait s Hi m c' rid' H Hw)|].
          intros [= Hs Hr]. apply u64_eq in Hr. subst rid'. exact (Hno (eq_sym Hs) Hw).
        * discriminate Hw.
      + intros m c' rid' v t Hm Hw. destruct (Hlook m c' Hm) as [[-> ->]|[(Hne & H & Hno)|(Hne & c0 & H0 & _ & _ & ->)]].
        * discriminate Hw.
        * apply (i_done s Hi m c' rid' v t H Hw).
        * discriminate Hw.
      + intros m1 c1 rid1 v1 m2 c2 rid2 v2 t Hm1 Hw1 Hm2 Hw2.
        destruct (Hlook m1 c1 Hm1) as [[-> ->]|[(_ & H1 & _)|(_ & c0 & _ & _ & _ & ->)]]; try discriminate Hw1.
        destruct (Hlook m2 c2 Hm2) as [[-> ->]|[(_ & H2 & _)|(_ & c0 & _ & _ & _ & ->)]]; try discriminate Hw2.
        eapply (i_once s Hi); eauto.
      + rewrite insert_length, drop_sender_length. apply (i_next s Hi).
      + intros m c' Hm. destruct (Hlook m c' Hm) as [[-> ->]|[(_ & H1 & _)|(_ & c0 & H0 & Hw & _ & ->)]].
        * cbn. rewrite <- Hrid. apply (i_ids s Hi n c Hc).
        * apply (i_ids s Hi m c' H1).
        * cbn. rewrite <- (c_rid_eq c0 rid Hw). apply (i_ids s Hi m c0 H0).
    - (* EvGiveUp *)
      cbn [rstep]. destruct (st_calls s !! n) as [c|] eqn:Hc; [|discriminate].
      destruct (c_st c) as [?|rid|?|?|? ? ?] eqn:Hst; try discriminate.
      intros [= <-].
      assert (Hlook : forall m c', (<[n:=set_st c (CGone rid)]> (st_calls s)) !! m = Some c' ->
        (m = n /\ c' = set_st c (CGone rid)) \/ (m <> n /\ st_calls s !! m = Some c')).
      { intros m c' H. apply list_lookup_insert_Some in H as [(<- & <- & _)|(Hne & H)]; [left; split; reflexivity|].
        right. split; [congruence|exact H]. }
      constructor; cbn [st_map st_calls st_resps entries next_id].
      + intros sid r sd He. destruct (i_entry s Hi _ _ _ He) as (c0 & Hc0 & Hs0 & Hr0 & Ht0 & Hst0).
        destruct (decide (snd_call sd = n)) as [Heq|Hne].
        * exists (set_st c (CGone rid)). subst n. split; [apply list_lookup_insert; apply lookup_lt_Some in Hc; exact Hc|].
          rewrite Hc0 in Hc. injection Hc as <-. cbn. rewrite (c_rid_eq c0 rid Hst) in Hr0.
          repeat split; try assumption. right. reflexivity.
        * exists c0. split; [|repeat split; assumption]. rewrite list_lookup_insert_ne by congruence. exact Hc0.
      + intros m c' rid' Hm Hw. destruct (Hlook m c' Hm) as [[-> ->]|[_ H]]; [discriminate Hw|]. apply (i_wait s Hi m c' rid' H Hw).
      + intros m c' rid' v t Hm Hw. destruct (Hlook m c' Hm) as [[-> ->]|[_ H]]; [discriminate Hw|]. apply (i_done s Hi m c' rid' v t H Hw).
      + intros m1 c1 rid1 v1 m2 c2 rid2 v2 t Hm1 Hw1 Hm2 Hw2.
        destruct (Hlook m1 c1 Hm1) as [[-> ->]|[_ H1]]; try discriminate Hw1.
        destruct (Hlook m2 c2 Hm2) as [[-> ->]|[_ H2]]; try discriminate Hw2.
        eapply (i_once s Hi); eauto.
      + rewrite insert_length. apply (i_next s Hi).
      + intros m c' Hm. destruct (Hlook m c' Hm) as [[-> ->]|[_ H]]; [|apply (i_ids s Hi m c' H)].
        cbn. rewrite <- (c_rid_eq c rid Hst). apply (i_ids s Hi n c Hc).
    - (* EvResp *)
      cbn [rstep]. intros [= <-]. destruct Hi as [H1 H2 H3 H4 H5 H6].
      constructor; cbn [st_map st_calls st_resps entries next_id]; try assumption.
      intros n c rid' v' t Hc Hw. apply lookup_app_l_Some. eapply H3; eauto.
    - (* EvTake *)
      intros H. apply rstep_take in H as (r & Hr & Hl & ->).
      constructor; cbn [st_map st_calls st_resps entries next_id].
      + intros sid k sd He. apply lookup_delete_Some in He as [Hne He].
        destruct (i_entry s Hi _ _ _ He) as (c0 & Hc0 & Hs0 & Hr0 & Ht0 & Hst0).
        exists c0. split; [|repeat split; assumption].
        apply taken_other; [exact Hi|exact Hc0|]. intros [Hs Hw]. apply Hne.
        rewrite <- Hs0, <- Hr0, (c_rid_eq _ _ Hw), Hs. reflexivity.
      + intros n c rid Hc Hw. destruct (taken_lookup s r t n c Hi Hc) as [[H Hno]|(c0 & H0 & Hs & Hw0 & [[_ ->]|[_ ->]])]; try discriminate Hw.
        rewrite lookup_delete_ne; [apply (i_wait s Hi n c rid H Hw)|].
        intros [= Hs Hrr]. apply u64_eq in Hrr. subst rid. exact (Hno (eq_sym Hs) Hw).
      + intros n c rid v t' Hc Hw. destruct (taken_lookup s r t n c Hi Hc) as [[H Hno]|(c0 & H0 & Hs & Hw0 & [[Ht ->]|[_ ->]])].
        * pose proof (i_done s Hi n c rid v t' H Hw) as Hd. rewrite list_lookup_insert_ne; [exact Hd|].
          intros ->. rewrite Hr in Hd. injection Hd as ->. discriminate Hl.
        * cbn in Hw. injection Hw as <- <- <-. rewrite list_lookup_insert by (apply lookup_lt_Some in Hr; exact Hr).
          unfold kill. cbn [set_st c_sid c_ty]. rewrite Hs, Ht. reflexivity.
        * discriminate Hw.
      + assert (Hnew : forall n c rid v, taken s r t !! n = Some c -> c_st c = CDone rid v t ->
                   exists c0, st_calls s !! n = Some c0 /\ c_sid c0 = r_sid r /\ c_st c0 = CWait (r_rid r)).
        { intros n c rid v Hc Hw. destruct (taken_lookup s r t n c Hi Hc) as [[H Hno]|(c0 & H0 & Hs & Hw0 & _)].
          - pose proof (i_done s Hi n c rid v t H Hw) as Hd. rewrite Hr in Hd. injection Hd as ->. discriminate Hl.
          - exists c0. repeat split; assumption. }
        assert (Hold : forall n c rid v t', t' <> t -> taken s r t !! n = Some c -> c_st c = CDone rid v t' -> st_calls s !! n = Some c).
        { intros n c rid v t' Hne Hc Hw. destruct (taken_lookup s r t n c Hi Hc) as [[H Hno]|(c0 & H0 & Hs & Hw0 & [[_ ->]|[_ ->]])].
          - exact H.
          - cbn in Hw. injection Hw as _ _ Hw. congruence.
          - discriminate Hw. }
        intros m1 c1 rid1 v1 m2 c2 rid2 v2 t' Hm1 Hw1 Hm2 Hw2.
        destruct (decide (t' = t)) as [->|Hne].
        * destruct (Hnew _ _ _ _ Hm1 Hw1) as (d1 & Hd1 & Hs1 & Hx1). destruct (Hnew _ _ _ _ Hm2 Hw2) as (d2 & Hd2 & Hs2 & Hx2).
          pose proof (i_wait s Hi _ _ _ Hd1 Hx1) as E1. pose proof (i_wait s Hi _ _ _ Hd2 Hx2) as E2.
          rewrite Hs1 in E1. rewrite Hs2 in E2. rewrite E1 in E2. injection E2 as _ ->. reflexivity.
        * eapply (i_once s Hi); [eapply Hold|..]; eauto.
      + rewrite taken_length. apply (i_next s Hi).
      + intros n c Hc. destruct (taken_lookup s r t n c Hi Hc) as [[H Hno]|(c0 & H0 & Hs & Hw0 & [[_ ->]|[_ ->]])].
        * apply (i_ids s Hi n c H).
        * cbn. rewrite <- (c_rid_eq _ _ Hw0). apply (i_ids s Hi n c0 H0).
        * cbn. rewrite <- (c_rid_eq _ _ Hw0). apply (i_ids s Hi n c0 H0).
  Qed.

  Lemma rinv_run l : forall s s', rinv s -> rrun s l = Some s' -> rinv s'.
  Proof.
    induction l as [|e l IH]; intros s s' Hi; cbn [rrun]; [intros [= <-]; exact Hi|].
    destruct (rstep s e) as [s1|] eqn:E; [|discriminate]. apply IH. eapply rinv_step; eauto.
  Qed.

  Lemma rrun_app (s : rstate) (l1 l2 : list revent) : rrun s (l1 ++ l2) = match rrun s l1 with Some s' => rrun s' l2 | None => None end.
  Proof.
    revert s. induction l1 as [|e l1 IH]; intros s; [reflexivity|]. cbn [app rrun].
    destruct (rstep s e); [apply IH|reflexivity].
  Qed.

  (** What one step does to an existing call, seen from the call. *)
  Lemma rstep_call s e s' n c : rinv s -> rstep s e = Some s' -> st_calls s !! n = Some c ->
    exists c', st_calls s' !! n = Some c' /\ c_sid c' = c_sid c /\ c_ty c' = c_ty c /\ c_rid c' = c_rid c /\
      (c' = c \/
       (e = EvInsert n /\ c_st c = CHasId (c_rid c) /\ c_st c' = CWait (c_rid c)) \/
       (e = EvGiveUp n /\ c_st c = CWait (c_rid c) /\ c_st c' = CGone (c_rid c)) \/
       (exists m d, e = EvInsert m /\ m <> n /\ st_calls s !! m = Some d /\ c_sid d = c_sid c /\ c_rid d = c_rid c /\
          c_st c = CWait (c_rid c) /\ c_st c' = CDropped (c_rid c)) \/
       (exists t r, e = EvTake t /\ st_resps s !! t = Some r /\ r_sid r = c_sid c /\ r_rid r = c_rid c /\
          c_st c = CWait (c_rid c) /\
          ((r_ty r = c_ty c /\ c_st c' = CDone (c_rid c) (r_val r) t) \/ (r_ty r <> c_ty c /\ c_st c' = CDropped (c_rid c))))).
  Proof.
    intros Hi H Hc. destruct e as [sid ty|m|m|sid rid ty v|t].
    - cbn [rstep rm_next] in H. injection H as <-. exists c. cbn [st_calls].
      split; [apply lookup_app_l_Some, Hc|]. repeat split. left. reflexivity.
    - cbn [rstep] in H. destruct (st_calls s !! m) as [d|] eqn:Hd; [|discriminate].
      destruct (c_st d) as [rid|?|?|?|? ? ?] eqn:Hst; try discriminate. injection H as <-. cbn [st_calls].
      assert (Hrd : c_rid d = rid) by (unfold c_rid; rewrite Hst; reflexivity).
      destruct (decide (m = n)) as [->|Hne].
      + rewrite Hc in Hd. injection Hd as <-. exists (set_st c (CWait rid)).
        split; [apply list_lookup_insert; rewrite drop_sender_length; apply lookup_lt_Some in Hc; exact Hc|].
        cbn [set_st c_sid c_ty]. split; [reflexivity|]. split; [reflexivity|]. split; [rewrite Hrd; reflexivity|].
        right. left. rewrite Hst, Hrd. repeat split.
      + rewrite list_lookup_insert_ne by congruence.
        destruct (entries (st_map s) !! (c_sid d, u64v rid)) as [sd|] eqn:E.
        2:{ exists c. split; [exact Hc|]. repeat split. left. reflexivity. }
        destruct (i_entry s Hi _ _ _ E) as (c0 & Hc0 & Hs0 & Hr0 & Ht0 & Hst0). apply u64_eq in Hr0.
        destruct (decide (n = snd_call sd)) as [->|Hn].
        2:{ exists c. rewrite drop_sender_other by assumption. split; [exact Hc|]. repeat split. left. reflexivity. }
        rewrite Hc in Hc0. injection Hc0 as <-. destruct Hst0 as [Hw|Hg].
        * exists (set_st c (CDropped (c_rid c))). rewrite (drop_sender_wait _ _ _ _ Hc Hw).
          split; [reflexivity|]. cbn [set_st c_sid c_ty]. split; [reflexivity|]. split; [reflexivity|]. split; [reflexivity|].
          right. right. right. left. exists m, d. repeat split; try assumption; congruence.
        * exists c. split; [|repeat split; left; reflexivity].
          unfold drop_sender. rewrite Hc, Hg. exact Hc.
    - cbn [rstep] in H. destruct (st_calls s !! m) as [d|] eqn:Hd; [|discriminate].
      destruct (c_st d) as [?|rid|?|?|? ? ?] eqn:Hst; try discriminate. injection H as <-. cbn [st_calls].
      destruct (decide (m = n)) as [->|Hne].
      + rewrite Hc in Hd. injection Hd as <-. exists (set_st c (CGone rid)).
        split; [apply list_lookup_insert; apply lookup_lt_Some in Hc; exact Hc|].
        cbn [set_st c_sid c_ty]. rewrite (c_rid_eq _ _ Hst). repeat split. right. right. left. repeat split. exact Hst.
      + rewrite list_lookup_insert_ne by congruence. exists c. split; [exact Hc|]. repeat split. left. reflexivity.
    - cbn [rstep] in H. injection H as <-. exists c. split; [exact Hc|]. repeat split. left. reflexivity.
    - apply rstep_take in H as (r & Hr & Hl & ->). cbn [st_calls].
      destruct (taken s r t !! n) as [c'|] eqn:E.
      2:{ apply lookup_ge_None in E. rewrite taken_length in E. apply lookup_lt_Some in Hc. lia. }
      exists c'. split; [reflexivity|].
      destruct (taken_lookup s r t n c' Hi E) as [[H _]|(c0 & H0 & Hs & Hw & Hx)].
      + rewrite Hc in H. injection H as <-. repeat split. left. reflexivity.
      + rewrite Hc in H0. injection H0 as <-. pose proof (c_rid_eq _ _ Hw) as Hrid.
        destruct Hx as [[Ht ->]|[Ht ->]]; cbn [set_st c_sid c_ty]; rewrite c_rid_set.
        * split; [reflexivity|]. split; [reflexivity|]. split; [congruence|]. right. right. right. right.
          exists t, r. rewrite Hrid. repeat split; try congruence. left. split; [congruence|reflexivity].
        * split; [reflexivity|]. split; [reflexivity|]. split; [congruence|]. right. right. right. right.
          exists t, r. rewrite Hrid. repeat split; try congruence. right. split; [congruence|reflexivity].
  Qed.

  Lemma rrun_done s l s' n c rid v t : rinv s -> rrun s l = Some s' -> st_calls s !! n = Some c ->
    c_st c = CDone rid v t -> st_calls s' !! n = Some c.
  Proof.
    revert s. induction l as [|e l IH]; intros s Hi; cbn [rrun]; [intros [= <-]; auto|].
    destruct (rstep s e) as [s1|] eqn:E; [|discriminate]. intros Hr Hc Hw.
    destruct (rstep_call s e s1 n c Hi E Hc) as (c' & Hc' & _ & _ & _ & Hx).
    assert (c' = c) as ->.
    { destruct Hx as [->|[(_ & H & _)|[(_ & H & _)|[(? & ? & _ & _ & _ & _ & _ & H & _)|(? & ? & _ & _ & _ & _ & H & _)]]]];
        [reflexivity|congruence..]. }
    apply (IH s1); try assumption. eapply rinv_step; eauto.
  Qed.

  Lemma rrun_resp (s : rstate) l (s' : rstate) t (r : resp V) : rrun s l = Some s' -> st_resps s !! t = Some r -> r_live r = false -> st_resps s' !! t = Some r.
  Proof.
    revert s. induction l as [|e l IH]; intros s; cbn [rrun]; [intros [= <-]; auto|].
    destruct (rstep s e) as [s1|] eqn:E; [|discriminate]. intros Hr Ht Hl. apply (IH s1); [exact Hr| |exact Hl].
    destruct e as [sid ty|m|m|sid rid ty v|t'].
    - cbn [rstep rm_next] in E. injection E as <-. exact Ht.
    - cbn [rstep] in E. destruct (st_calls s !! m) as [d|]; [|discriminate]. destruct (c_st d); try discriminate. injection E as <-. exact Ht.
    - cbn [rstep] in E. destruct (st_calls s !! m) as [d|]; [|discriminate]. destruct (c_st d); try discriminate. injection E as <-. exact Ht.
    - cbn [rstep] in E. injection E as <-. apply lookup_app_l_Some, Ht.
    - apply rstep_take in E as (r' & Hr' & Hl' & ->). cbn [st_resps]. rewrite list_lookup_insert_ne; [exact Ht|].
      intros ->. congruence.
  Qed.

  Lemma two64_ids n m : N.of_nat n < two64 -> N.of_nat m < two64 -> N.of_nat n mod two64 = N.of_nat m mod two64 -> n = m.
  Proof. intros H1 H2. rewrite !N.mod_small by assumption. lia. Qed.
End Facts.

Section Origin.
  Context {V : Type}.
  Notation rstate := (rstate V).

  (** Every recorded response was received. *)
  Lemma resp_origin (l : list (revent V)) : forall (s s' : rstate), rrun s l = Some s' ->
    forall t r, st_resps s' !! t = Some r ->
    (exists r0, st_resps s !! t = Some r0 /\ r_sid r0 = r_sid r /\ r_rid r0 = r_rid r /\ r_ty r0 = r_ty r /\ r_val r0 = r_val r) \/
    In (EvResp (r_sid r) (r_rid r) (r_ty r) (r_val r)) l.
  Proof.
    induction l as [|e l IH]; intros s s'; cbn [rrun]; [intros [= <-] t r H; left; exists r; repeat split; exact H|].
    destruct (rstep s e) as [s1|] eqn:E; [|discriminate]. intros Hr t r H.
    destruct (IH s1 s' Hr t r H) as [(r0 & H0 & E1 & E2 & E3 & E4)|Hin]; [|right; right; exact Hin].
    destruct e as [sid ty|m|m|sid rid ty v|t'].
    - cbn [rstep rm_next] in E. injection E as <-. left. exists r0. repeat split; assumption.
    - cbn [rstep] in E. destruct (st_calls s !! m) as [d|]; [|discriminate]. destruct (c_st d); try discriminate. injection E as <-.
      left. exists r0. repeat split; assumption.
    - cbn [rstep] in E. destruct (st_calls s !! m) as [d|]; [|discriminate]. destruct (c_st d); try discriminate. injection E as <-.
      left. exists r0. repeat split; assumption.
    - cbn [rstep] in E. injection E as <-. cbn [st_resps] in H0. apply lookup_snoc_Some in H0 as [[_ H0]|[_ <-]].
      + left. exists r0. repeat split; assumption.
      + right. left. cbn in *. congruence.
    - apply rstep_take in E as (r' & Hr' & Hl' & ->). cbn [st_resps] in H0.
      apply list_lookup_insert_Some in H0 as [(<- & <- & _)|(Hne & H0)].
      + left. exists r'. repeat split; assumption.
      + left. exists r0. repeat split; assumption.
  Qed.
End Origin.
