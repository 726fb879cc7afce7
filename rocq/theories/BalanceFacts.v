(** * The state database only grows (C112). *)
From Verif Require Import Base BaseFacts Hex Types Rlp RlpFacts FixedCodec FixedCodecFacts CodecProps StateAdapter StateAdapterFacts
  Executor ExecutorFacts ExecSpec ExecProps ExecBlock ExecMore ExecOrder ExecChain Mempool Merkle Bincode ConsMsg Proto Wire Storage StorageSpec StorageFacts
  StorageProps Consensus ConsSpec ConsFacts ConsInv ConsChain Api ApiFacts LedgerSpec LedgerFacts LedgerRun ImmutFacts PropEnd.
Local Open Scope N_scope.

(** A state that opens, opens in every larger database, with the same contents. *)
Lemma trie_from_grows (r : hash) (d d' : gmap hash (gmap bytes bytes)) T : d ⊆ d' -> trie_from r d = Ok T -> trie_from r d' = Ok T.
Proof.
  intros Hs H. apply trie_from_ok in H. unfold trie_from.
  change (@lookup hash (gmap bytes bytes) trie_db _ r d') with (@lookup hash (gmap bytes bytes) (gmap hash (gmap bytes bytes)) _ r d').
  rewrite (lookup_weaken _ _ _ _ H Hs). reflexivity.
Qed.
Lemma contract_grows {K V} `{Countable K} (s : StateAdapter.schema K V) (top : gmap bytes bytes) (addr : bytes) (d d' : gmap hash (gmap bytes bytes)) a :
  d ⊆ d' -> gen_contract_state s top addr d = Ok a -> gen_contract_state s top addr d' = Ok a.
Proof.
  intros Hs. unfold gen_contract_state. destruct (top !! addr) as [v|]; [|auto].
  destruct (map_err ETypes (hash_from_bytes v)) as [r|x|]; cbn [rbind]; [|discriminate..].
  destruct (trie_from r d) as [T|x|] eqn:E; cbn [rbind]; [|discriminate..]. rewrite (trie_from_grows _ _ _ _ Hs E). auto.
Qed.
Lemma open_grows (digest : bytes -> hash) (chain root : hash) (d d' : gmap hash (gmap bytes bytes)) (e p : u64) (cb : address) x :
  d ⊆ d' -> Executor.from_root digest chain root d e p cb = Ok x ->
  exists x', Executor.from_root digest chain root d' e p cb = Ok x' /\ x_acc x' = x_acc x /\ x_bank x' = x_bank x.
Proof.
  intros Hs H. unfold Executor.from_root in H.
  apply rbind_ok in H as (top & H1 & H). apply rbind_ok in H as (acc & H2 & H). apply rbind_ok in H as (bank & H3 & [= <-]).
  exists (MkExec chain e p cb top acc bank d'). split; [|split; reflexivity]. unfold Executor.from_root.
  assert ((if decide (root = hash_from_empty digest) then Ok ∅ else trie_from root d') = Ok top) as ->.
  { destruct (decide _); [exact H1|]. exact (trie_from_grows _ _ _ _ Hs H1). }
  cbn [rbind]. rewrite (contract_grows _ _ _ _ _ _ Hs H2). cbn [rbind]. rewrite (contract_grows _ _ _ _ _ _ Hs H3). reflexivity.
Qed.
Lemma ledger_grows (digest : bytes -> hash) (d d' : durable) (root : hash) (m : accounts) (b : assets) :
  (d.2 : gmap hash (gmap bytes bytes)) ⊆ d'.2 -> ledger_at digest d root m b -> ledger_at digest d' root m b.
Proof.
  intros Hs (chain & e & p & cb & x & H & <- & <-). destruct (open_grows _ _ _ _ _ _ _ _ _ Hs H) as (x' & H' & E1 & E2).
  exists chain, e, p, cb, x'. split; [exact H'|]. unfold committed, committed_assets. rewrite E1, E2. split; reflexivity.
Qed.

Section Run.
  Context (digest : bytes -> hash) (root_of : gmap bytes bytes -> hash) (show : exec_err -> rstring)
          (verify : bytes -> bytes -> bytes -> bool) (shapes : nat -> shape) (cf : config).
  Notation run_call := (run_call digest root_of show verify shapes cf).
  Notation happens := (happens digest root_of show verify shapes cf).
  Notation history := (Consensus.history digest root_of show verify shapes cf).
  Notation along := (along digest root_of show verify shapes cf).
  Context (code : bytes) (qs : list (address * list (hash * N))).
  Context (He : root_of ∅ = hash_from_empty digest) (Hg : parsed_genesis (cf_genesis cf) code qs).
  Notation db_ok := (db_ok digest root_of (cf_chain_id cf) (cf_genesis cf) code qs).
  Notation step_in := (step_in digest root_of show cf).
  Notation tries d := (snd d : gmap hash (gmap bytes bytes)).

  Lemma call_grows (ms : list (gmap bytes bytes)) (n : node) (c : Consensus.call) r n' t :
    clash_free root_of (∅ :: ms) -> db_ok ms (nd_disk n).2 -> step_in ms (Up n) (EvCall c) -> run_call c n = (r, n', t) ->
    Forall (fun d : durable => tries (nd_disk n) ⊆ tries d) t.
  Proof using He Hg.
    intros Hc Hp [Ho Hin] E. cbn [event_execs] in Hin.
    assert (forall d : durable, d.2 = (nd_disk n).2 -> tries (nd_disk n) ⊆ tries d) as Hsame by (intros d ->; reflexivity).
    destruct (light_call c) eqn:L.
    { apply light_call_out in E as [_ ->]; [constructor|exact L]. }
    destruct c as [| | |id cm|os sent|msg first|os re rt]; try discriminate; clear L.
    - apply call_commit in E as [r1 E]. destruct E; [constructor|apply Forall_cons; split; [reflexivity|constructor]..].
    - apply call_rest in E as [r1 E]. destruct E as [|id p pf txs r1 Eb Hr1|id p pf txs resp tr' lo Eb Hx El]; [constructor..|].
      cbn [orders_ok] in Ho. unfold call_execs in Hin. rewrite Eb in Hin.
      destruct (executed_ok digest root_of show cf code qs He ms _ _ _ _ _ _ _ _ _ Hc Hp Ho Hin Hx) as (Hs & _).
      apply Forall_cons; split; [exact Hs|].
      refine (all_tries (fun tr => tries (nd_disk n) ⊆ tr) _ _ _ _). exact Hs.
    - apply call_sync in E as [r1 [E ->]]. constructor.
    - apply call_sync_epoch in E as [r1 E].
      destruct E as [Hns|id rich ch sr Eb Hlt|id rich ch sr r1 Eb Hr1 Hre'|id rich ch sr r1 e Eb Hr1 -> Hl'|id rich ch sr e txs resp tr' Eb Hle -> -> Hl' Hx d1];
        [constructor|constructor|constructor|apply Forall_cons; split; [reflexivity|constructor]|].
      cbn [orders_ok] in Ho. unfold call_execs in Hin. rewrite Eb in Hin.
      destruct (executed_ok digest root_of show cf code qs He ms _ _ _ _ _ _ _ _ _ Hc Hp Ho Hin Hx) as (Hs & _).
      apply Forall_cons; split; [reflexivity|]. apply Forall_cons; split; [exact Hs|].
      refine (all_tries (fun tr => tries (nd_disk n) ⊆ tr) _ _ _ _). exact Hs.
  Qed.

  Lemma boot_grows (ms : list (gmap bytes bytes)) (d : durable) o1 o2 r t :
    clash_free root_of (∅ :: ms) -> db_ok ms d.2 -> step_in ms (Down d) (EvBoot o1 o2) ->
    handle_init digest root_of cf o1 o2 d = (r, t) -> Forall (fun d' : durable => tries d ⊆ tries d') t /\ (forall d', r = Ok d' -> d' = List.last t d).
  Proof using He Hg.
    intros Hc Hp [[H1 H2] Hin] E. cbn [event_execs] in Hin. apply handle_init_out in E as [[-> Hd]|(Hn & root & tr & Eg & -> & ->)].
    { split; [constructor|]. intros d' H. exact (Hd d' H). }
    destruct (genesis_state_ok digest root_of cf code qs Hg ms _ _ _ _ _ Hc Hp H1 H2 Hin Eg) as (Hs & _).
    split; [|intros d' [= <-]; reflexivity]. apply Forall_cons; split; [exact Hs|].
    refine (all_tries (fun tr => tries d ⊆ tr) _ _ _ _). exact Hs.
  Qed.

  Lemma event_grows (ms : list (gmap bytes bytes)) (m : machine) (ev : event) :
    clash_free root_of (∅ :: ms) -> db_ok ms (disk m).2 -> step_in ms m ev -> tries (disk m) ⊆ tries (disk (happens m ev)).
  Proof using He Hg.
    intros Hc Hp Hs. destruct ev as [c|c k|o1 o2|o1 o2 k]; destruct m as [d|n]; cbn [Consensus.happens disk] in *; try reflexivity.
    - destruct (run_call c n) as [[r n'] t] eqn:E. cbn [disk]. rewrite (call_last _ _ _ _ _ _ _ _ _ _ _ E).
      apply (last_all (fun d : durable => tries (nd_disk n) ⊆ tries d)); [reflexivity|]. exact (call_grows ms n c r n' t Hc Hp Hs E).
    - destruct (run_call c n) as [[r n'] t] eqn:E. cbn [disk].
      assert (step_in ms (Up n) (EvCall c)) as Hs' by (destruct Hs as [A B]; split; [destruct c; exact A|exact B]).
      apply (last_all (fun d : durable => tries (nd_disk n) ⊆ tries d)); [reflexivity|]. apply take_all. exact (call_grows ms n c r n' t Hc Hp Hs' E).
    - destruct (handle_init digest root_of cf o1 o2 d) as [r t] eqn:E. destruct (boot_grows ms d o1 o2 r t Hc Hp Hs E) as [F Hr].
      assert (tries d ⊆ tries (List.last t d)) as Hl by (apply (last_all (fun d' : durable => tries d ⊆ tries d')); [reflexivity|exact F]).
      destruct r as [d'|x|]; cbn [disk]; [|exact Hl..].
      destruct (start digest cf d') as [n|x|] eqn:Es; cbn [disk].
      + apply start_out in Es as (e & _ & ->). cbn [nd_disk]. rewrite (Hr d' eq_refl). exact Hl.
      + rewrite ?(Hr d' eq_refl). exact Hl.
      + rewrite ?(Hr d' eq_refl). exact Hl.
    - destruct (handle_init digest root_of cf o1 o2 d) as [r t] eqn:E.
      destruct (boot_grows ms d o1 o2 r t Hc Hp Hs E) as [F _]. cbn [disk].
      apply (last_all (fun d' : durable => tries d ⊆ tries d')); [reflexivity|]. apply take_all, F.
  Qed.

  Lemma db_grows (l l' : list event) : states_ok digest root_of show verify shapes cf (l ++ l') ->
    tries (disk (history l)) ⊆ tries (disk (history (l ++ l'))).
  Proof using He Hg.
    intros Hok. pose proof (step_in_along _ _ _ _ _ _ _ Hok) as Hs. destruct Hok as [_ _ Hc]. revert Hs Hc.
    generalize (concat (map tries_of (execs_seen digest root_of show verify shapes cf (Down (∅, ∅)) (l ++ l')))). intros ms Hs Hc.
    induction l' as [|ev l' IH] using rev_ind; [rewrite app_nil_r; reflexivity|].
    rewrite app_assoc in Hs |- *. apply along_app in Hs as [Hs [Hs1 _]]. specialize (IH Hs).
    pose proof (db_history digest root_of show verify shapes cf code qs He Hg ms (l ++ l') Hc Hs) as Hd.
    etransitivity; [exact IH|]. unfold Consensus.history in *. rewrite (fold_left_app _ (l ++ l')). cbn [fold_left].
    apply (event_grows ms); [exact Hc|exact Hd|exact Hs1].
  Qed.
End Run.
