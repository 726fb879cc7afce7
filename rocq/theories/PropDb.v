(** * C105: the executor over the bytes of its database is the executor on maps *)
From Verif Require Import Base BaseFacts Hex Types Rlp RlpFacts FixedCodec FixedCodecFacts CodecProps StateAdapter StateAdapterFacts AdapterProps
  Executor ExecSpec ExecutorFacts ExecOrder ExecChain LedgerFacts Mpt MptFacts MptDen MptCodec StorageSpec MptStore TrieSpec TrieFacts PropTrie DbExec DbFacts DbRun DbSpec DbProof.
Local Open Scope N_scope.

Section Db.
  Context (digest : bytes -> hash) (show : exec_err -> rstring).
  Notation m_final l := (m_run digest show mstate0 l).2.
  Notation d_final qss l := (d_run digest show qss dstate0 l).2.

  (** Whatever the history of genesis, blocks, balance queries and deaths in
      the middle of a commit, and whatever order the hash maps iterate in:
      every result is the one of the executor on maps. *)
  Theorem C105_database_is_maps (qss : nat -> nat -> dorder) (l : list db_op) :
    dorders_ok qss -> ops_ok digest show mstate0 l -> nodes_apart digest (m_final l) -> sizes_ok (d_final qss l) ->
    (d_run digest show qss dstate0 l).1 = (m_run digest show mstate0 l).1.
  Proof. intros Hq Ho Hn Hs. apply (run_same digest show l qss mstate0 dstate0 Hq (J0 digest) Ho Hn Hs). Qed.

  (** The orders do not matter. *)
  Theorem C105_orders_irrelevant (qss qss' : nat -> nat -> dorder) (l : list db_op) :
    dorders_ok qss -> dorders_ok qss' -> ops_ok digest show mstate0 l -> nodes_apart digest (m_final l) ->
    sizes_ok (d_final qss l) -> sizes_ok (d_final qss' l) ->
    (d_run digest show qss dstate0 l).1 = (d_run digest show qss' dstate0 l).1.
  Proof. intros Hq Hq' Ho Hn Hs Hs'. rewrite !C105_database_is_maps by assumption. reflexivity. Qed.

  (** A state root handed out at any point of the history opens at the end of
      it, and shows the accounts and assets that were committed there. *)
  Theorem C105_state_readable (qss : nat -> nat -> dorder) (l l1 l2 : list db_op) (o : db_op) (r : hash) (x : executor) (p : params) :
    dorders_ok qss -> ops_ok digest show mstate0 l -> nodes_apart digest (m_final l) -> sizes_ok (d_final qss l) ->
    l = l1 ++ o :: l2 -> leaves digest show (m_final l1) o = Some (r, x) ->
    exists d, d_open digest (d_final qss l) r p = Ok d /\
      (forall a, da_get account_schema (dx_db d) (dx_acc d) a = Ok (committed x !! a)) /\
      (forall id, da_get asset_schema (dx_db d) (dx_bank d) id = Ok (committed_assets x !! id)).
  Proof.
    intros Hq Ho Hn Hs E Hl. destruct (run_same digest show l qss mstate0 dstate0 Hq (J0 digest) Ho Hn Hs) as (_ & _ & _ & Hlv).
    destruct (Hlv l1 o l2 r x E Hl) as (-> & Hst & Hsub).
    assert (x_trie x ∈ tries_of x) as HT by apply elem_of_list_here.
    destruct (from_root_same digest (pm_chain p) (ds_db (d_final qss l)) (pm_epoch p) (pm_price p) (pm_coinbase p) (x_trie x) (committed x) (committed_assets x) ∅ Hst) as (d & Ed & _ & Edb & HR).
    { eapply apart_sub; [exact Hn|]. intros v Hv. apply elem_of_app in Hv as [Hv|Hv]; [auto|]. right. eapply parts_in; [apply Hsub, HT|exact Hv]. }
    exists d. split; [exact Ed|]. split.
    - intros a. rewrite (rad_get digest account_schema good_account_schema _ _ _ a (r_acc _ _ _ HR)). cbn [x_acc]. unfold ad_get, ad_new. cbn. rewrite !lookup_empty. reflexivity.
    - intros a. rewrite (rad_get digest asset_schema good_asset_schema _ _ _ a (r_bank _ _ _ HR)). cbn [x_bank]. unfold ad_get, ad_new. cbn. rewrite !lookup_empty. reflexivity.
  Qed.

  (** As asked for: the balance at any root handed out so far. *)
  Theorem C105_old_balance (qss : nat -> nat -> dorder) (qs : nat -> dorder) (l l1 l2 : list db_op) (o : db_op) (r : hash) (x : executor) (p : params) (a : address) (id : hash) :
    dorders_ok qss -> ops_ok digest show mstate0 l -> nodes_apart digest (m_final l) -> sizes_ok (d_final qss l) ->
    l = l1 ++ o :: l2 -> leaves digest show (m_final l1) o = Some (r, x) ->
    (d_step digest show qs (d_final qss l) (OpBalance r p a id)).1 =
      OutBalance (match committed x !! a with Some acc => Ok (account_balance acc id) | None => Err (EAccountNotFound a) end).
  Proof.
    intros Hq Ho Hn Hs E Hl. destruct (C105_state_readable qss l l1 l2 o r x p Hq Ho Hn Hs E Hl) as (d & Ed & Ha & _).
    cbn [d_step fst]. rewrite Ed. cbn [rbind]. unfold d_get_balance, d_get_account, d_read_account, dbind, dask, dlift, dret. cbn [fst snd].
    rewrite Ha. destruct (committed x !! a); reflexivity.
  Qed.

  (** *** Crashes *)
  Definition near (s s' : mstate) : Prop := ms_db s = ms_db s' /\ ms_known s = ms_known s' /\ forall m, m ∈ ms_tries s' -> m ∈ ms_tries s.
  Lemma near_block s s' r p ts : near s s' -> m_block digest show s r p ts = m_block digest show s' r p ts.
  Proof. intros (E & _). unfold m_block, m_open. rewrite E. reflexivity. Qed.
  Lemma near_genesis s s' p g : near s s' -> m_genesis digest s p g = m_genesis digest s' p g.
  Proof. intros (E & _). unfold m_genesis, m_open. rewrite E. reflexivity. Qed.
  Lemma near_ext s s' db k l : near s s' -> near (MState db (k :: ms_known s) (ms_tries s ++ l)) (MState db (k :: ms_known s') (ms_tries s' ++ l)).
  Proof. intros (_ & E & H). split; [reflexivity|]. split; [cbn; rewrite E; reflexivity|]. cbn. intros m Hm. apply elem_of_app in Hm as [Hm|Hm]; apply elem_of_app; auto. Qed.
  Lemma near_step s s' o : near s s' -> is_crash o = false ->
    (m_step digest show s o).1 = (m_step digest show s' o).1 /\ near (m_step digest show s o).2 (m_step digest show s' o).2.
  Proof.
    intros Hn Hc. destruct o as [p g|r p ts|r p a id|r p ts n|p g n]; [| | |discriminate Hc..]; cbn [m_step fst snd].
    - rewrite (near_genesis s s' p g Hn). split; [reflexivity|]. destruct (m_genesis digest s' p g) as [[r x]|e|]; try exact Hn. apply near_ext, Hn.
    - rewrite (near_block s s' r p ts Hn). split; [reflexivity|]. destruct (m_block digest show s' r p ts) as [[r0 x]|e|]; try exact Hn. apply near_ext, Hn.
    - split; [|exact Hn]. unfold m_open. rewrite (proj1 Hn). reflexivity.
  Qed.
  Lemma near_crash s s' o : near s s' -> is_crash o = true -> near (m_step digest show s o).2 s' /\ (m_step digest show s o).1 = OutCrash.
  Proof.
    intros (E1 & E2 & E3) Hc. destruct o as [p g|r p ts|r p a id|r p ts n|p g n]; try discriminate Hc; cbn [m_step fst snd]; (split; [|reflexivity]);
    [destruct (m_block digest show s r p ts) as [[r0 x]|e|]|destruct (m_genesis digest s p g) as [[r0 x]|e|]]; (split; [exact E1|split; [exact E2|]]); cbn; intros m Hm; try (apply elem_of_app; left); auto.
  Qed.
  Lemma near_ok s s' o : near s s' -> op_ok digest s o -> op_ok digest s' o.
  Proof.
    intros (E1 & E2 & E3). assert (forall r, root_ok digest s r -> root_ok digest s' r) as H.
    { intros r [H|[H|H]]; [left; exact H|right; left; rewrite <- E2; exact H|right; right]. intros m b Hm. apply H, E3, Hm. }
    destruct o; cbn [op_ok]; auto.
  Qed.
  Lemma step_out s o : out_crash (m_step digest show s o).1 = is_crash o.
  Proof. destruct o; reflexivity. Qed.
  Definition live (l : list db_op) : list db_op := List.filter (fun o => negb (is_crash o)) l.
  Definition live_out (l : list db_out) : list db_out := List.filter (fun o => negb (out_crash o)) l.
  Lemma near_run l : forall s s', near s s' -> ops_ok digest show s l ->
    live_out (m_run digest show s l).1 = (m_run digest show s' (live l)).1 /\ near (m_run digest show s l).2 (m_run digest show s' (live l)).2 /\
    ops_ok digest show s' (live l).
  Proof.
    induction l as [|o l IH]; intros s s' Hn Hok; [split; [reflexivity|split; [exact Hn|exact I]]|]. destruct Hok as [Ho Hl].
    cbn [m_run live List.filter]. pose proof (step_out s o) as Hso. destruct (is_crash o) eqn:Ec; cbn [negb].
    - destruct (near_crash s s' o Hn Ec) as [Hn' E]. destruct (m_step digest show s o) as [r s1]. cbn [fst snd] in *. subst r.
      destruct (IH s1 s' Hn' Hl) as (H1 & H2 & H3). destruct (m_run digest show s1 l) as [rs s2]. cbn [fst snd] in *. auto.
    - destruct (near_step s s' o Hn Ec) as [E Hn']. pose proof (near_ok s s' o Hn Ho) as Ho'.
      cbn [m_run ops_ok]. destruct (m_step digest show s o) as [r s1], (m_step digest show s' o) as [r' s1'] eqn:E'. cbn [fst snd] in *. subst r'.
      destruct (IH s1 s1' Hn' Hl) as (H1 & H2 & H3). fold (live l). destruct (m_run digest show s1 l) as [rs s2], (m_run digest show s1' (live l)) as [rs' s2']. cbn [fst snd] in *.
      cbn [live_out List.filter]. rewrite Hso. cbn [negb]. fold (live_out rs). rewrite H1. auto.
  Qed.

  (** A death in the middle of a commit leaves no trace: everything else comes
      out as if those blocks had never been tried. *)
  Theorem C105_crash_leaves_no_trace (qss qss' : nat -> nat -> dorder) (l : list db_op) :
    dorders_ok qss -> dorders_ok qss' -> ops_ok digest show mstate0 l -> nodes_apart digest (m_final l) ->
    sizes_ok (d_final qss l) -> sizes_ok (d_final qss' (List.filter (fun o => negb (is_crash o)) l)) ->
    List.filter (fun r => negb (out_crash r)) (d_run digest show qss dstate0 l).1 =
      (d_run digest show qss' dstate0 (List.filter (fun o => negb (is_crash o)) l)).1.
  Proof.
    intros Hq Hq' Ho Hn Hs Hs'. fold (live l) in *. rewrite (C105_database_is_maps qss l Hq Ho Hn Hs).
    destruct (near_run l mstate0 mstate0 ltac:(split; [reflexivity|split; [reflexivity|auto]]) Ho) as (H1 & H2 & H3).
    rewrite (C105_database_is_maps qss' (live l) Hq' H3); [exact H1| |exact Hs'].
    eapply apart_sub; [exact Hn|]. intros v Hv. cbn [flat_map] in Hv. apply elem_of_app in Hv as [Hv|Hv]; [auto|]. right.
    apply in_parts in Hv as (m & Hm & Hv). eapply parts_in; [apply (proj2 (proj2 H2)), Hm|exact Hv].
  Qed.
End Db.
Print Assumptions C105_database_is_maps.
Print Assumptions C105_orders_irrelevant.
Print Assumptions C105_state_readable.
Print Assumptions C105_old_balance.
Print Assumptions C105_crash_leaves_no_trace.
