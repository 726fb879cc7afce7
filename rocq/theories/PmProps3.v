(** * Peer manager: connection slots, back-off, giving up (C78, C83, C84) *)
From Coq Require Import List Bool NArith Lia.
From stdpp Require Import base decidable list gmap sets fin_sets.
From Verif Require Import Base Types CodecProps PeerManager PmSpec PmFacts PmMore PmPeers PmProps PmProps2.
Import ListNotations.
Local Open Scope N_scope.

(** Peers other than ourself that are connected or being dialled. *)
Definition busy_peers (our : pid) (s : pm) : N :=
  N.of_nat (size (connected s ∖ {[our]})) + N.of_nat (size (connecting s)).

Lemma count_exact our s : our ∈ connected s ->
  N.of_nat (size (connected s)) + N.of_nat (size (connecting s)) < 2 ^ 64 ->
  connection_count s = busy_peers our s.
Proof.
  intros Ho Hb. unfold connection_count, busy_peers. rewrite size_diff_singleton by exact Ho.
  assert (size (connected s) <> 0%nat) as Hn.
  { intros E. apply size_empty_inv in E. pose proof (proj1 (E our) Ho) as X. apply elem_of_empty in X. exact X. }
  set (x := size (connected s)) in *. set (y := size (connecting s)) in *.
  replace (N.of_nat x + N.of_nat y + (2 ^ 64 - 1)) with (N.of_nat (x - 1) + N.of_nat y + 1 * 2 ^ 64) by lia.
  rewrite N.mod_add by lia. apply N.mod_small. lia.
Qed.

Lemma choice_length {A} (from : list A) n l : valid_choice from n l -> N.of_nat (length l) <= n.
Proof. intros (_ & _ & E). rewrite E. apply N.le_min_l. Qed.

Lemma slots_bound cfg c s picks unks : routine_ok cfg c s picks unks ->
  connection_count s + N.of_nat (length picks) + N.of_nat (length unks) <= max_connections cfg \/
  picks = [] /\ unks = [].
Proof.
  intros [H1 H2]. apply choice_length in H1, H2. unfold free_slots in *.
  destruct (connection_count s <? max_connections cfg) eqn:E; [apply N.ltb_lt in E; left; lia|].
  right. destruct picks; [|cbn in H1; lia]. split; [reflexivity|]. destruct unks; [reflexivity|cbn in H2; lia].
Qed.

Lemma one_choice {A} (from : list A) x : In x from -> valid_choice from 1 [x].
Proof.
  intros H. repeat split.
  - constructor; [set_solver|constructor].
  - intros y [<-|[]]. exact H.
  - destruct from; [destruct H|]. cbn. lia.
Qed.
Lemma nil_choice {A} n : valid_choice (@nil A) n [].
Proof. repeat split; [constructor|intros x []|cbn; lia]. Qed.

Definition test_addr (i : nat) : maddr := [Ip4 []; Tcp (N.of_nat i)].
Lemma test_addr_inj i j : test_addr i = test_addr j -> i = j.
Proof. intros E. injection E as E. lia. Qed.

Section Props3.
  Context (digest : bytes -> hash) (peer_id : pubkey -> pid).
  Notation our_id := (our_id peer_id).
  Notation process_event := (process_event digest peer_id).
  Notation act := (act digest peer_id).
  Notation reach := (reach digest peer_id).
  Notation start := (start digest peer_id).
  Notation inv := (inv digest peer_id).
  Notation is_boot := (is_bootstrap_peer peer_id).

  (** ** Dials to discovered addresses are not counted *)
  Record idle (cfg : config) (k n : nat) (s : pm) : Prop := {
    d_pool : exists pe, pool s = {[our_id cfg := pe]} /\ p_id pe = our_id cfg;
    d_conn : connected s = {[our_id cfg]};
    d_cing : connecting s = ∅;
    d_addr : addr_pid s = ∅;
    d_unk : forall i, (k <= i < n)%nat -> exists u, unknowns s !! test_addr i = Some u /\ u_connecting u = false;
    d_new : forall i, (n <= i)%nat -> unknowns s !! test_addr i = None
  }.

  Lemma idle_start pk mx c : let cfg := Config pk [] mx in idle cfg 0 0 (start cfg c []).
  Proof.
    cbv zeta. split; [|reflexivity|reflexivity|reflexivity| |].
    - exists (peer_new digest peer_id c pk). split; reflexivity.
    - intros i Hi. exfalso. lia.
    - intros i _. apply lookup_empty.
  Qed.

  Lemma idle_discover cfg k n s c : idle cfg k n s ->
    idle cfg k (S n) (fst (act cfg c s (AEvent (DiscoverAddr (test_addr n))))).
  Proof.
    intros [H1 H2 H3 H4 H5 H6]. cbn [PeerManager.act PeerManager.process_event fst]. unfold identify_addr.
    assert (match_pid (test_addr n) s = None) as ->.
    { unfold match_pid. rewrite H4, lookup_empty. unfold test_addr. cbv iota. rewrite lookup_empty. reflexivity. }
    rewrite (H6 n) by lia. split; try assumption.
    - intros i Hi. cbn. destruct (decide (i = n)) as [->|Hne].
      + rewrite lookup_insert. exists u_new. split; reflexivity.
      + rewrite lookup_insert_ne; [apply H5; lia|]. intros E. apply test_addr_inj in E. lia.
    - intros i Hi. cbn. rewrite lookup_insert_ne; [apply H6; lia|]. intros E. apply test_addr_inj in E. lia.
  Qed.

  Lemma idle_routine cfg k n s c : idle cfg k n s -> (k < n)%nat -> max_connections cfg = 1 ->
    routine_ok cfg c s [] [test_addr k] /\
    idle cfg (S k) n (fst (act cfg c s (ARoutine [] [test_addr k]))) /\
    fst (snd (act cfg c s (ARoutine [] [test_addr k]))) = [Connect [test_addr k]].
  Proof.
    intros [H1 H2 H3 H4 H5 H6] Hk Hm. split; [|split].
    - assert (connection_count s = 0) as Hc.
      { unfold connection_count. rewrite H2, H3, size_singleton, size_empty. reflexivity. }
      unfold routine_ok, free_slots. rewrite Hc, Hm. change (0 <? 1) with true. cbv iota.
      change (1 - 0 - N.of_nat (length [])) with 1. split.
      + assert (candidates c s = []) as ->.
        { destruct (candidates c s) as [|p l] eqn:E; [reflexivity|]. exfalso.
          destruct (candidates_spec c s p) as (Hp & _ & q & pe & Hq & Hid & _); [rewrite E; left; reflexivity|].
          destruct H1 as (pe0 & Hpool & Hid0). rewrite Hpool in Hq. apply lookup_singleton_Some in Hq as [<- <-].
          apply Hp. rewrite H2, <- Hid. apply elem_of_singleton. exact Hid0. }
        apply nil_choice.
      + apply one_choice, fresh_spec, H5. lia.
    - cbn [PeerManager.act routine fst concat map app fold_left mark_connecting foldr]. split; try assumption.
      + intros i Hi. cbn. rewrite lookup_alter_ne; [apply H5; lia|]. intros E. apply test_addr_inj in E. lia.
      + intros i Hi. cbn. rewrite lookup_alter_ne; [apply H6; lia|]. intros E. apply test_addr_inj in E. lia.
    - reflexivity.
  Qed.

  Lemma idle_discovers cfg n s0 c : idle cfg 0 0 s0 ->
    exists s, reach cfg s0 (map (fun i => (c, AEvent (DiscoverAddr (test_addr i)))) (seq 0 n)) s /\ idle cfg 0 n s.
  Proof.
    intros H. induction n as [|n (s & Hr & Hi)]; [exists s0; split; [apply reach_nil|exact H]|].
    exists (fst (act cfg c s (AEvent (DiscoverAddr (test_addr n))))). split; [|apply idle_discover, Hi].
    rewrite seq_S, map_app. apply reach_snoc; [exact Hr|exact I].
  Qed.

  Lemma idle_dials cfg n s0 c k : idle cfg 0 n s0 -> max_connections cfg = 1 -> (k <= n)%nat ->
    exists s, reach cfg s0 (map (fun i => (c, ARoutine [] [test_addr i])) (seq 0 k)) s /\ idle cfg k n s.
  Proof.
    intros H Hm. induction k as [|k IH]; intros Hk; [exists s0; split; [apply reach_nil|exact H]|].
    destruct IH as (s & Hr & Hi); [lia|].
    destruct (idle_routine cfg k n s c Hi ltac:(lia) Hm) as (Hok & Hi' & _).
    exists (fst (act cfg c s (ARoutine [] [test_addr k]))). split; [|exact Hi'].
    rewrite seq_S, map_app. apply reach_snoc; [exact Hr|exact Hok].
  Qed.

  (** ** Back-off *)
  Definition due (p : pid) (t : N) (q : pid) (pe : peer) : Prop := q = p -> next_retry (p_state pe) = t.

  Lemma due_act cfg c s a p t : ~ may_remove s p a -> is_Some (pool s !! p) ->
    each_peer (due p t) s -> each_peer (due p t) (fst (act cfg c s a)).
  Proof.
    intros Hm Hp H.
    refine (each_act digest peer_id cfg (due p t) (boot_addrs s) (fun _ q => q <> p) (fun q => q <> p)
              _ _ _ _ _ _ _ _ _ _ c s a _ _ eq_refl H).
    - intros q pe ad HP E. exact (HP E).
    - intros q pe ad _ HP E. exact (HP E).
    - intros q pe c1 ip HP E. exact (HP E).
    - intros q pe c1 HP E. exact (HP E).
    - intros q pe HP E. exact (HP E).
    - intros q pe c1 Hq _ _ E. contradiction.
    - intros q pe c1 Hq _ E. contradiction.
    - intros q pe c1 Hq _ E. contradiction.
    - intros c1 pk Hq E. contradiction.
    - intros c1 x Hq E. contradiction.
    - intros q Hq ->. contradiction.
    - intros q Hq ->. rewrite Hq in Hp. destruct Hp as [? E]. discriminate E.
  Qed.

  (** [a] is a report that a dial failed *)
  Definition reports_timeout (a : action) : Prop := exists ad, a = AEvent (ReconnectLater ad).

  Lemma backoff_kept cfg c0 saved h1 s1 h2 s2 p pe :
    reach cfg (start cfg c0 saved) h1 s1 -> pool s1 !! p = Some pe ->
    reach cfg s1 h2 s2 -> inv cfg s1 ->
    (forall c a, In (c, a) h2 -> ~ (drops peer_id (h1 ++ h2) p a /\ ~ opens_peer peer_id a p) /\ ~ reports_timeout a) ->
    is_Some (pool s2 !! p) /\ each_peer (due p (next_retry (p_state pe))) s2 /\
    forall c a, In (c, a) h2 -> dials_peer a p -> next_retry (p_state pe) < inst c.
  Proof.
    intros Hr1 Hp Hr2 Hi. induction Hr2 as [|h s c a Hr IH Hok]; intros Hd.
    - split; [eauto|]. split; [|intros c a []]. intros q pq Hq ->. rewrite Hp in Hq. injection Hq as <-. reflexivity.
    - destruct IH as (H1 & H2 & H3).
      { intros c' a' Hin. destruct (Hd c' a') as [Hx Hy]; [apply in_or_app; left; exact Hin|]. split; [|exact Hy].
        intros [X1 X2]. apply Hx. split; [|exact X2]. rewrite app_assoc. apply (drops_mono digest), X1. }
      destruct (Hd c a) as [Hx Hy]; [apply in_or_app; right; left; reflexivity|].
      assert (~ may_remove s p a) as Hm.
      { intros [X|[X|[X|[(n&X&Hn)|(ad&X&_)]]]].
        - apply Hx. split; [right; left; exact X|]. destruct X as (n & ty & ->). intros (pk & m & (ad & ty' & E) & _). discriminate E.
        - apply Hx. split; [right; right; left; exact X|]. subst a. intros (pk & m & (ad & ty' & E) & _). discriminate E.
        - apply Hx. split; [right; right; right; left; exact X|]. subst a. intros (pk & m & (ad & ty' & E) & _). discriminate E.
        - apply Hx. split; [right; right; right; right; exists n; split; [exact X|]|].
          + rewrite app_assoc. apply ever_snoc. eapply sp_ever; [|exact Hn]. eapply reach_app; eassumption.
          + subst a. intros (pk & m & (ad & ty' & E) & _). discriminate E.
        - apply Hy. exists ad. exact X. }
      split; [apply dom_act; [exact H1|contradiction]|]. split; [apply due_act; assumption|].
      intros c' a' Hin. apply in_app_or in Hin as [Hin|[E|[]]]; [exact (H3 _ _ Hin)|]. injection E as <- <-.
      destruct a as [e|picks unks]; cbn; [tauto|]. intros Hpk.
      destruct Hok as [(_ & Hin & _) _]. apply Hin, candidates_spec in Hpk as (_ & _ & q & pe' & Hq & Hid & Hlt).
      assert (inv cfg s) as Hs by (eapply inv_reach; [exact Hi|exact Hr]).
      destruct (i_peer _ _ _ _ Hs _ _ Hq) as (Hid' & _). rewrite Hid in Hid'. subst q.
      rewrite (H2 _ _ Hq eq_refl) in Hlt. exact Hlt.
  Qed.

  (** A failure that counts: the peer is there, the last one was at least four
      seconds ago. *)
  Lemma counted_failure c pe : 4 <= duration_since (sys c) (attempt_at (p_state pe)) ->
    retry_count (p_state pe) <= 5 ->
    let k := retry_count (p_state pe) in
    retry_count (p_state (increase_retry c pe)) = k + 1 /\
    next_retry (p_state (increase_retry c pe)) = inst c + 5 ^ (k + 1) * 1000000000 /\
    attempt_at (p_state (increase_retry c pe)) = sys c.
  Proof.
    intros Hd Hk. cbv zeta. unfold increase_retry, VALID_ATTEMPT_INTERVAL.
    destruct (duration_since (sys c) (attempt_at (p_state pe)) <? 4) eqn:E; [apply N.ltb_lt in E; lia|].
    cbn [p_state with_state retry_count next_retry attempt_at]. unfold BACKOFF_BASE.
    assert (retry_count (p_state pe) < 6) as H6 by lia.
    assert ((retry_count (p_state pe) + 1) mod 2 ^ 32 = retry_count (p_state pe) + 1) as -> by (apply N.mod_small; lia).
    assert (5 ^ (retry_count (p_state pe) + 1) < 2 ^ 64) as Hb.
    { apply N.le_lt_trans with (5 ^ 6); [apply N.pow_le_mono_r; lia|reflexivity]. }
    rewrite (N.mod_small _ _ Hb). auto.
  Qed.

  Lemma not_counted c pe : duration_since (sys c) (attempt_at (p_state pe)) < 4 -> increase_retry c pe = pe.
  Proof. intros H. unfold increase_retry, VALID_ATTEMPT_INTERVAL. apply N.ltb_lt in H. rewrite H. reflexivity. Qed.

  (** The sixth failure of a bootstrap peer. *)
  Lemma boot_sixth cfg c s p pe : pool s !! p = Some pe -> is_boot cfg p = true -> retry_count (p_state pe) = 5 ->
    4 <= duration_since (sys c) (attempt_at (p_state pe)) ->
    exists pe', pool (increase_peer_retry peer_id cfg c p s) !! p = Some pe' /\
      retry_count (p_state pe') = 0 /\ next_retry (p_state pe') = inst c + 5 ^ 6 * 1000000000.
  Proof.
    intros Hp Hb Hk Hd. destruct (counted_failure c pe Hd ltac:(lia)) as (E1 & E2 & E3). rewrite Hk in E1, E2.
    unfold increase_peer_retry. cbv zeta.
    assert (pool (increase_retry_count c p s) !! p = Some (increase_retry c pe)) as E.
    { cbn. rewrite lookup_alter, Hp. reflexivity. }
    unfold reach_max_retry. rewrite E, E1. change (MAX_RETRY_COUNT <=? 5 + 1) with true. cbv iota.
    rewrite cleanly_eq, Hb. cbv zeta. cbn [pool]. rewrite lookup_alter, E.
    eexists. split; [reflexivity|]. unfold boot_penalty.
    set (m := reset_retry (mark_disconnected c (increase_retry c pe))).
    assert (attempt_at (p_state m) = sys c) as Em by exact E3.
    assert (increase_retry c m = m) as En.
    { apply not_counted. rewrite Em. unfold duration_since. lia. }
    rewrite !En. split; [reflexivity|exact E2].
  Qed.

  (** Giving up on a peer other than a bootstrap. *)
  Lemma cleanly_forgets cfg c p s : is_boot cfg p = false -> pool (cleanly_remove_peer peer_id cfg c p s) !! p = None.
  Proof. intros Hb. rewrite cleanly_eq, Hb. cbv zeta. cbn [pool]. apply lookup_delete. Qed.
  Lemma cleanly_no_session cfg c p s : peer_session (cleanly_remove_peer peer_id cfg c p s) !! p = None.
  Proof. rewrite (proj1 (cleanly_sess peer_id cfg c p s)). unfold closed_ps. apply lookup_delete. Qed.

  Lemma retry_sixth_silent cfg c s p pe : pool s !! p = Some pe -> retry_count (p_state pe) = 5 ->
    4 <= duration_since (sys c) (attempt_at (p_state pe)) ->
    let r := process_event cfg c s (RetryPeerLater p) in
    fst (snd r) = [] /\ peer_session (fst r) !! p = None /\ p ∉ connected (fst r).
  Proof.
    intros Hp Hk Hd. cbv zeta. cbn [PeerManager.process_event fst snd].
    destruct (counted_failure c pe Hd ltac:(lia)) as (E1 & _ & _). rewrite Hk in E1.
    assert (increase_peer_retry peer_id cfg c p s = cleanly_remove_peer peer_id cfg c p (increase_retry_count c p s)) as ->.
    { unfold increase_peer_retry. cbv zeta. unfold reach_max_retry. cbn [increase_retry_count modify_peer with_pool pool].
      rewrite lookup_alter, Hp. cbn [fmap option_fmap option_map]. rewrite E1. reflexivity. }
    rewrite cleanly_no_session. split; [reflexivity|]. split; [reflexivity|].
    rewrite (proj1 (cleanly_conn peer_id cfg c p _)). apply not_elem_of_difference. right. apply elem_of_singleton. reflexivity.
  Qed.
End Props3.
