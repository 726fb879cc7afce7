(** * The connection service: specification and proofs (C79) *)
From Coq Require Import List Bool NArith Lia Permutation.
From stdpp Require Import base decidable list.
From Verif Require Import Base Types PeerManager Connection.
Import ListNotations.

(** The transport commands an event stands for. *)
Definition cmds_of (e : conn_event) : list tcmd :=
  match e with
  | Connect addrs => map Dial addrs
  | Disconnect n => [Close n]
  | SendMsg tar msg High => [QuickBroadcast tar msg]
  | SendMsg tar msg Normal => [Broadcast tar msg]
  end.
(** The commands the transport accepted, in order. *)
Definition accepted (l : list (tcmd * tresult)) : list tcmd :=
  flat_map (fun x => match snd x with None => [fst x] | Some _ => [] end) l.
(** The transport never said it was closed. *)
Definition never_closed (l : list (tcmd * tresult)) : Prop := forall c, ~ In (c, Some (IoError BrokenPipe)) l.
(** The events submitted in a schedule. *)
Definition submitted (sched : list cop) : list conn_event :=
  flat_map (fun o => match o with Submit e => [e] | Poll => [] end) sched.

(** [progress evs pend inb acc]: of the events [evs], a prefix has been handed
    to the transport completely, in order, each with its commands in some order;
    the next one may be handed in part, the rest of it pending; the others are
    still in the channel. *)
Inductive progress (evs : list conn_event) : list conn_event -> list conn_event -> list tcmd -> Prop :=
  | all_done done groups inb : Forall2 (fun g e => Permutation g (cmds_of e)) groups done ->
      evs = done ++ inb -> progress evs [] inb (concat groups)
  | in_part done groups e part p inb : Forall2 (fun g e => Permutation g (cmds_of e)) groups done ->
      evs = done ++ e :: inb -> Permutation (part ++ cmds_of p) (cmds_of e) ->
      progress evs [p] inb (concat groups ++ part).

Lemma accepted_app l1 l2 : accepted (l1 ++ l2) = accepted l1 ++ accepted l2.
Proof. apply flat_map_app. Qed.
Lemma accepted_cons x l : accepted (x :: l) = accepted [x] ++ accepted l.
Proof. apply (accepted_app [x] l). Qed.
Lemma never_closed_app l1 l2 : never_closed (l1 ++ l2) <-> never_closed l1 /\ never_closed l2.
Proof.
  unfold never_closed. split; [intros H; split; intros c Hc; apply (H c), in_or_app; auto|].
  intros [H1 H2] c Hc. apply in_app_or in Hc as [Hc|Hc]; [exact (H1 c Hc)|exact (H2 c Hc)].
Qed.

Section Facts.
  Context (tr : nat -> tcmd -> tresult).

  Lemma try_do_spec c l : exists x, snd (try_do tr c l) = l ++ [(c, x)] /\
    (x = None /\ fst (try_do tr c l) = Some true \/
     x = Some (IoError BrokenPipe) /\ fst (try_do tr c l) = None \/
     x <> None /\ x <> Some (IoError BrokenPipe) /\ fst (try_do tr c l) = Some false).
  Proof.
    unfold try_do. cbn [fst snd]. set (r := tr (length l) c). exists r. split; [reflexivity|].
    destruct r as [[[]|]|]; cbn; try (right; left; split; reflexivity);
      try (right; right; repeat split; discriminate). left. split; reflexivity.
  Qed.

  Lemma dial_all_spec addrs : forall kept l, exists l', snd (dial_all tr addrs kept l) = l ++ l' /\
    (forall c x, In (c, x) l' -> In c (map Dial addrs)) /\
    (never_closed l' -> exists left, fst (dial_all tr addrs kept l) = Some (kept ++ left) /\
       Permutation (accepted l' ++ map Dial left) (map Dial addrs)).
  Proof.
    induction addrs as [|a rest IH]; intros kept l; cbn [dial_all].
    - exists []. split; [rewrite app_nil_r; reflexivity|]. split; [intros c x []|].
      intros _. exists []. rewrite app_nil_r. split; reflexivity.
    - destruct (try_do_spec (Dial a) l) as (x & E & H). destruct (try_do tr (Dial a) l) as [r l1]. cbn [fst snd] in E, H. subst l1.
      destruct H as [[-> ->]|[[-> ->]|(H1 & H2 & ->)]]; cbv beta iota.
      + destruct (IH kept (l ++ [(Dial a, None)])) as (l' & E & Hc & Hn). exists ((Dial a, None) :: l').
        rewrite E, <- app_assoc. split; [reflexivity|]. split.
        * intros c x [E1|Hin]; [injection E1 as <- <-; left; reflexivity|right; exact (Hc _ _ Hin)].
        * intros Hnc. destruct Hn as (left & E1 & Hp).
          { intros c Hin. apply (Hnc c). right. exact Hin. }
          exists left. split; [exact E1|]. cbn. constructor. exact Hp.
      + exists [(Dial a, Some (IoError BrokenPipe))]. split; [reflexivity|]. split.
        * intros c x [E1|[]]. injection E1 as <- <-. left. reflexivity.
        * intros Hnc. exfalso. apply (Hnc (Dial a)). left. reflexivity.
      + destruct (IH (kept ++ [a]) (l ++ [(Dial a, x)])) as (l' & E & Hc & Hn). exists ((Dial a, x) :: l').
        rewrite E, <- app_assoc. split; [reflexivity|]. split.
        * intros c y [E1|Hin]; [injection E1 as <- <-; left; reflexivity|right; exact (Hc _ _ Hin)].
        * intros Hnc. destruct Hn as (left & E1 & Hp).
          { intros c Hin. apply (Hnc c). right. exact Hin. }
          exists (a :: left). rewrite E1, <- app_assoc. split; [reflexivity|].
          rewrite accepted_cons. replace (accepted [(Dial a, x)]) with (@nil tcmd) by (destruct x; [reflexivity|contradiction]).
          cbn [app map]. rewrite <- Permutation_middle. constructor. exact Hp.
  Qed.

  (** Processing one event: it is handed over, or a part is kept. *)
  Lemma process_spec e s : exists l', log (c_process_event tr e s) = log s ++ l' /\
    inbox (c_process_event tr e s) = inbox s /\
    (exists q, pending (c_process_event tr e s) = pending s ++ q /\ (length q <= 1)%nat) /\
    (forall c x, In (c, x) l' -> In c (cmds_of e)) /\
    (never_closed l' ->
      (pending (c_process_event tr e s) = pending s /\ Permutation (accepted l') (cmds_of e)) \/
      exists p, pending (c_process_event tr e s) = pending s ++ [p] /\ Permutation (accepted l' ++ cmds_of p) (cmds_of e)).
  Proof.
    assert (forall c0 l e0, cmds_of e0 = [c0] -> exists l', snd (try_do tr c0 l) = l ++ l' /\
      (forall c x, In (c, x) l' -> In c (cmds_of e0)) /\
      (never_closed l' -> fst (try_do tr c0 l) = Some true /\ Permutation (accepted l') (cmds_of e0) \/
         fst (try_do tr c0 l) = Some false /\ Permutation (accepted l' ++ cmds_of e0) (cmds_of e0))) as Hone.
    { intros c0 l e0 E0. destruct (try_do_spec c0 l) as (x & E & H). exists [(c0, x)]. split; [exact E|]. split.
      - intros c y [E1|[]]. injection E1 as <- <-. rewrite E0. left. reflexivity.
      - intros Hnc. destruct H as [[-> H]|[[-> H]|(H1 & H2 & H)]].
        + left. split; [exact H|]. rewrite E0. reflexivity.
        + exfalso. apply (Hnc c0). left. reflexivity.
        + right. split; [exact H|]. rewrite E0. destruct x; [reflexivity|contradiction]. }
    destruct e as [addrs|n|tar msg pri]; cbn [c_process_event].
    - destruct (dial_all_spec addrs [] (log s)) as (l' & E & Hc & Hn).
      destruct (dial_all tr addrs [] (log s)) as [r l1]. cbn [fst snd] in E, Hn. subst l1.
      exists l'. cbn [log inbox pending]. split; [reflexivity|]. split; [reflexivity|]. split; [|split; [exact Hc|]].
      + destruct r as [[|a rest]|]; [exists []; rewrite app_nil_r; cbn; auto| |exists []; rewrite app_nil_r; cbn; auto].
        exists [Connect (a :: rest)]. cbn. auto.
      + intros Hnc. destruct (Hn Hnc) as (left & -> & Hp). cbn [app]. destruct left as [|a rest].
        * left. split; [reflexivity|]. cbn [map] in Hp. rewrite app_nil_r in Hp. exact Hp.
        * right. exists (Connect (a :: rest)). split; [reflexivity|exact Hp].
    - destruct (Hone (Close n) (log s) (Disconnect n) eq_refl) as (l' & E & Hc & Hn).
      destruct (try_do tr (Close n) (log s)) as [r l1]. cbn [fst snd] in E, Hn. subst l1.
      exists l'. cbn [log inbox pending]. split; [reflexivity|]. split; [reflexivity|]. split; [|split; [exact Hc|]].
      + destruct r as [[]|]; [exists []; rewrite app_nil_r; cbn; auto| |exists []; rewrite app_nil_r; cbn; auto].
        exists [Disconnect n]. cbn. auto.
      + intros Hnc. destruct (Hn Hnc) as [[-> Hp]|[-> Hp]]; [left; auto|right; eauto].
    - assert (cmds_of (SendMsg tar msg pri) = [send_cmd tar msg pri]) as E0 by (destruct pri; reflexivity).
      destruct (Hone (send_cmd tar msg pri) (log s) (SendMsg tar msg pri) E0) as (l' & E & Hc & Hn).
      destruct (try_do tr (send_cmd tar msg pri) (log s)) as [r l1]. cbn [fst snd] in E, Hn. subst l1.
      exists l'. cbn [log inbox pending]. split; [reflexivity|]. split; [reflexivity|]. split; [|split; [exact Hc|]].
      + destruct r as [[]|]; [exists []; rewrite app_nil_r; cbn; auto| |exists []; rewrite app_nil_r; cbn; auto].
        exists [SendMsg tar msg pri]. cbn. auto.
      + intros Hnc. destruct (Hn Hnc) as [[-> Hp]|[-> Hp]]; [left; auto|right; eauto].
  Qed.

  (** Only one event is ever pending. *)
  Lemma receive_pending evs : forall s, (length (pending s) <= 1)%nat -> (length (pending (receive tr evs s)) <= 1)%nat.
  Proof.
    induction evs as [|e rest IH]; intros s H; cbn [receive]; [exact H|].
    destruct (pending s) as [|p q] eqn:E; [|rewrite E; exact H]. apply IH.
    destruct (process_spec e (Conn [] rest (log s))) as (l' & _ & _ & (q & -> & Hq) & _). exact Hq.
  Qed.

  Definition inbox_is (s : conn) := inbox s.

  (** The progress of a service that was never told the transport is closed. *)
  Definition ok (evs : list conn_event) (s : conn) : Prop :=
    (length (pending s) <= 1)%nat /\ (never_closed (log s) -> progress evs (pending s) (inbox s) (accepted (log s))).

  Lemma receive_ok evs todo : forall s, inbox s = todo -> ok evs s -> ok evs (receive tr todo s).
  Proof.
    induction todo as [|e rest IH]; intros s Hin [Hl Hok]; cbn [receive]; [split; assumption|].
    destruct (pending s) as [|p q] eqn:Ep; [|split; [rewrite Ep; exact Hl|rewrite Ep; exact Hok]].
    destruct (process_spec e (Conn [] rest (log s))) as (l' & El & Ei & (q & Eq & Hq) & _ & Hp).
    apply IH; [rewrite Ei; reflexivity|]. split; [rewrite Eq; exact Hq|].
    rewrite El, Ei. cbn [log inbox pending] in *. intros Hnc. apply never_closed_app in Hnc as [H1 H2].
    specialize (Hok H1). rewrite Hin in Hok. inversion Hok as [done groups inb HF Hev E1 E2 E3|]. subst inb.
    rewrite accepted_app, <- E3. destruct (Hp H2) as [[-> Hperm]|(p & -> & Hperm)].
    - replace (concat groups ++ accepted l') with (concat (groups ++ [accepted l'])) by (rewrite concat_app; cbn; rewrite app_nil_r; reflexivity).
      apply (all_done _ (done ++ [e])); [apply Forall2_app; [exact HF|constructor; [exact Hperm|constructor]]|].
      rewrite <- app_assoc. exact Hev.
    - eapply in_part; [exact HF|exact Hev|exact Hperm].
  Qed.

  Lemma poll_ok evs s : ok evs s -> ok evs (c_poll tr s).
  Proof.
    intros [Hl Hok]. unfold c_poll. cbv zeta.
    match goal with |- ok evs (receive tr (inbox ?x) _) => set (s1 := x) end.
    apply receive_ok; [reflexivity|]. subst s1.
    destruct (pending s) as [|p [|p' q]] eqn:Ep; cbn [fold_left]; [split; [cbn; lia|exact Hok]| |cbn in Hl; lia].
    destruct (process_spec p (Conn [] (inbox s) (log s))) as (l' & El & Ei & (q & Eq & Hq) & _ & Hp).
    split; [rewrite Eq; exact Hq|]. rewrite El, Ei. cbn [log inbox pending] in *.
    intros Hnc. apply never_closed_app in Hnc as [H1 H2]. specialize (Hok H1).
    inversion Hok as [|done groups e part p0 inb HF Hev Hperm0 E1 E2 E3]. subst p0 inb.
    rewrite accepted_app, <- E3. destruct (Hp H2) as [[-> Hperm]|(p' & -> & Hperm)].
    - replace ((concat groups ++ part) ++ accepted l') with (concat (groups ++ [part ++ accepted l']))
        by (rewrite concat_app; cbn; rewrite app_nil_r, app_assoc; reflexivity).
      apply (all_done _ (done ++ [e])).
      + apply Forall2_app; [exact HF|constructor; [|constructor]]. rewrite Hperm. exact Hperm0.
      + rewrite <- app_assoc. exact Hev.
    - rewrite <- app_assoc. eapply in_part; [exact HF|exact Hev|]. rewrite <- app_assoc, Hperm. exact Hperm0.
  Qed.

  Lemma submit_ok evs e s : ok evs s -> ok (evs ++ [e]) (c_step tr s (Submit e)).
  Proof.
    intros [Hl Hok]. split; [exact Hl|]. cbn [c_step log pending inbox]. intros Hnc. destruct (Hok Hnc) as [done groups inb HF ->|done groups e0 part p inb HF -> Hp].
    - eapply all_done; [exact HF|]. rewrite <- app_assoc. reflexivity.
    - eapply in_part; [exact HF| |exact Hp]. rewrite <- app_assoc. reflexivity.
  Qed.

  Lemma submitted_app a b : submitted (a ++ b) = submitted a ++ submitted b.
  Proof. apply flat_map_app. Qed.

  Lemma run_ok sched : ok (submitted sched) (c_run tr sched).
  Proof.
    induction sched as [|o sched IH] using rev_ind.
    - split; [cbn; lia|]. intros _. apply (all_done [] [] []); [constructor|reflexivity].
    - unfold c_run. rewrite fold_left_app. cbn [fold_left]. fold (c_run tr sched). rewrite submitted_app.
      destruct o as [e|]; cbn [submitted flat_map app]; [apply submit_ok, IH|]. rewrite app_nil_r. apply poll_ok, IH.
  Qed.

  (** Draining. *)
  Definition all_ok_from (n : nat) : Prop := forall m c, (n <= m)%nat -> tr m c = None.

  Lemma process_all_ok e s : all_ok_from (length (log s)) -> pending (c_process_event tr e s) = pending s.
  Proof.
    intros H. destruct (process_spec e s) as (l' & El & _ & _ & _ & Hp).
    assert (forall c l, (length (log s) <= length l)%nat -> fst (try_do tr c l) = Some true) as Ht.
    { intros c l Hl. unfold try_do. cbn [fst]. rewrite H by exact Hl. reflexivity. }
    assert (forall addrs l, (length (log s) <= length l)%nat -> fst (dial_all tr addrs [] l) = Some []) as Hd.
    { induction addrs as [|a rest IH]; intros l Hl; cbn [dial_all]; [reflexivity|].
      pose proof (Ht (Dial a) l Hl) as Ha. destruct (try_do_spec (Dial a) l) as (x & Ex & _).
      destruct (try_do tr (Dial a) l) as [r l1]. cbn [fst snd] in Ha, Ex. subst r l1. apply IH. rewrite app_length. lia. }
    destruct e as [addrs|n|tar msg pri]; cbn [c_process_event].
    - specialize (Hd addrs (log s) (le_n _)). destruct (dial_all tr addrs [] (log s)) as [r l]. cbn [fst] in Hd. subst r. reflexivity.
    - specialize (Ht (Close n) (log s) (le_n _)). destruct (try_do tr (Close n) (log s)) as [r l]. cbn [fst] in Ht. subst r. reflexivity.
    - specialize (Ht (send_cmd tar msg pri) (log s) (le_n _)). destruct (try_do tr (send_cmd tar msg pri) (log s)) as [r l]. cbn [fst] in Ht. subst r. reflexivity.
  Qed.

  Lemma log_grows e s : (length (log s) <= length (log (c_process_event tr e s)))%nat.
  Proof. destruct (process_spec e s) as (l' & -> & _). rewrite app_length. lia. Qed.

  Lemma receive_all_ok evs : forall s, inbox s = evs -> pending s = [] -> all_ok_from (length (log s)) ->
    pending (receive tr evs s) = [] /\ inbox (receive tr evs s) = [].
  Proof.
    induction evs as [|e rest IH]; intros s Hi Hp Ha; cbn [receive]; [auto|]. rewrite Hp. apply IH.
    - destruct (process_spec e (Conn [] rest (log s))) as (l' & _ & -> & _). reflexivity.
    - rewrite process_all_ok; [reflexivity|exact Ha].
    - intros m c Hm. apply Ha. pose proof (log_grows e (Conn [] rest (log s))) as Hg. cbn [log] in Hg. lia.
  Qed.

  Lemma poll_all_ok s : all_ok_from (length (log s)) -> pending (c_poll tr s) = [] /\ inbox (c_poll tr s) = [].
  Proof.
    intros Ha. unfold c_poll. cbv zeta.
    assert (forall evs s1, pending s1 = [] -> all_ok_from (length (log s1)) ->
      let s2 := fold_left (fun s e => c_process_event tr e s) evs s1 in pending s2 = [] /\ all_ok_from (length (log s2))) as Hf.
    { induction evs as [|e rest IH]; intros s1 Hp H1; cbn [fold_left]; [auto|]. apply IH.
      - rewrite process_all_ok by exact H1. exact Hp.
      - intros m c Hm. apply H1. pose proof (log_grows e s1). lia. }
    destruct (Hf (pending s) (Conn [] (inbox s) (log s)) eq_refl Ha) as [H1 H2].
    apply receive_all_ok; [reflexivity|exact H1|exact H2].
  Qed.
End Facts.
