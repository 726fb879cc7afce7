(** * Proofs for C91: a node's chain state is a function of the blocks handed to it. *)
From Verif Require Import Base BaseFacts Hex Types Rlp RlpFacts FixedCodec StateAdapter StateAdapterFacts Executor ExecutorFacts ExecSpec ExecOrder
  Mempool Merkle ConsMsg Proto Wire Storage StorageSpec StorageFacts Consensus ConsSpec ConsFacts ConsInv ConsChain LedgerSpec ReplicaSpec.
Local Open Scope N_scope.

(** ** The genesis does not depend on the coinbase, the price or the epoch *)
Section Sim.
  Context (digest : bytes -> hash) (root_of : gmap bytes bytes -> hash).
  Definition exec_sim (x y : executor) : Prop :=
    x_chain_id x = x_chain_id y /\ x_trie x = x_trie y /\ x_acc x = x_acc y /\ x_bank x = x_bank y /\ x_db x = x_db y.
  Definition xs_sim (s s' : xs) : Prop :=
    exec_sim s.1 s'.1 /\ ic_cycles_used s.2 = ic_cycles_used s'.2 /\ ic_cycles_limit s.2 = ic_cycles_limit s'.2.
  Definition resp {A} (m : M A) : Prop := forall s s', xs_sim s s' -> (m s).1 = (m s').1 /\ xs_sim (m s).2 (m s').2.
  Lemma resp_lift {A} (r : res exec_err A) : resp (lift r).
  Proof. intros s s' H. split; [reflexivity|exact H]. Qed.
  Lemma resp_bind {A B} (m : M A) (k : A -> M B) : resp m -> (forall a, resp (k a)) -> resp (bind m k).
  Proof.
    intros Hm Hk s s' H. unfold bind. specialize (Hm s s' H). destruct (m s) as [r1 s1], (m s') as [r2 s2]. cbn [fst snd] in Hm.
    destruct Hm as [<- H1]. destruct r1; [apply Hk, H1|split; [reflexivity|exact H1]..].
  Qed.
  Lemma resp_register c nm sy su : resp (register digest c nm sy su).
  Proof.
    unfold register. destruct (decide _); [|intros s s' H; split; [reflexivity|exact H]].
    intros [x c1] [y c2] H. destruct H as ((E1 & E2 & E3 & E4 & E5) & C1 & C2). cbn [fst snd] in *.
    unfold bind, ask_exec. cbv beta iota zeta. cbn [fst snd]. rewrite E4, E1.
    destruct (StateAdapter.ad_contains (x_bank y) _); [split; [reflexivity|repeat split; assumption]|].
    unfold put_bank, ask_ctx, lift, put_cycles, ret. cbn [fst snd]. rewrite C1, C2.
    destruct (consume_cycles _ _ _); (split; [reflexivity|]); repeat split; cbn; assumption.
  Qed.
  Lemma resp_alloc_asset a g : resp (alloc_asset digest a g).
  Proof.
    unfold alloc_asset. apply resp_bind; [apply resp_lift|]. intros id. apply resp_bind; [apply resp_lift|]. intros b.
    intros [x c1] [y c2] H. destruct H as ((E1 & E2 & E3 & E4 & E5) & C1 & C2). cbn [fst snd] in *.
    unfold add_balance, find_or_create, insert_account, bind, ask_exec, ret, put_acc. cbn [fst snd]. rewrite E3.
    split; [reflexivity|]. repeat split; cbn; assumption.
  Qed.
  Lemma resp_alloc_assets a l : resp (alloc_assets digest a l).
  Proof.
    induction l as [|g l IH]; cbn [alloc_assets]; [intros s s' H; split; [reflexivity|exact H]|].
    apply resp_bind; [apply resp_alloc_asset|intros _; exact IH].
  Qed.
  Lemma resp_alloc_all l : resp (alloc_all digest l).
  Proof.
    induction l as [|g l IH]; cbn [alloc_all]; [intros s s' H; split; [reflexivity|exact H]|].
    apply resp_bind; [apply resp_lift|]. intros a. apply resp_bind.
    - intros [x c1] [y c2] H. destruct H as ((E1 & E2 & E3 & E4 & E5) & C1 & C2). cbn [fst snd] in *.
      unfold create_account, find_or_create, bind, ask_exec, ret. cbn [fst snd]. rewrite E3. split; [reflexivity|]. repeat split; assumption.
    - intros _. apply resp_bind; [apply resp_alloc_assets|intros _; exact IH].
  Qed.
  Lemma resp_genesis g : resp (genesis_body digest g).
  Proof.
    unfold genesis_body. apply resp_bind; [apply resp_lift|]. intros code. apply resp_bind; [apply resp_lift|]. intros a.
    apply resp_bind; [apply resp_register|intros _; apply resp_alloc_all].
  Qed.
  Lemma sim_stash o x y : exec_sim x y -> exec_sim (stash_all o x) (stash_all o y).
  Proof.
    intros (E1 & E2 & E3 & E4 & E5). unfold stash_all. destruct (io_bank_first o); cbn; rewrite ?E3, ?E4; repeat split; assumption.
  Qed.
  Lemma sim_commit o x y : exec_sim x y -> (commit root_of o x).1 = (commit root_of o y).1 /\ exec_sim (commit root_of o x).2 (commit root_of o y).2.
  Proof.
    intros (E1 & E2 & E3 & E4 & E5). unfold commit, commit_acc, commit_bank, trie_commit, exec_sim.
    destruct (io_bank_first o); cbn; rewrite ?E1, ?E2, ?E3, ?E4, ?E5; repeat split; reflexivity.
  Qed.
  Lemma genesis_sim o1 o2 x y g : exec_sim x y ->
    match create_genesis digest root_of o1 o2 x g, create_genesis digest root_of o1 o2 y g with
    | Ok (r, x'), Ok (r', y') => r = r' /\ exec_sim x' y'
    | Err e, Err e' => e = e'
    | Panic, Panic => True
    | _, _ => False
    end.
  Proof.
    intros H. unfold create_genesis.
    assert (xs_sim (x, genesis_ctx digest x) (y, genesis_ctx digest y)) as Hs by (split; [exact H|split; reflexivity]).
    destruct (resp_genesis g _ _ Hs) as [E S1].
    destruct (genesis_body digest g (x, genesis_ctx digest x)) as [[u|e|] [x1 c1]];
      destruct (genesis_body digest g (y, genesis_ctx digest y)) as [[u'|e'|] [y1 c1']]; cbn [fst snd] in E, S1; try discriminate E; auto; [|congruence].
    destruct S1 as [S1 _]. cbn [fst] in S1. pose proof (sim_commit o2 _ _ (sim_stash o1 _ _ S1)) as [A B].
    destruct (commit root_of o2 (stash_all o1 x1)), (commit root_of o2 (stash_all o1 y1)). auto.
  Qed.
End Sim.

(** ** Replaying the blocks *)
Definition core (s : status) : status :=
  MkStatus (cs_price s) (wrap64 0) (cs_epoch_id s) (cs_prev_hash s) (cs_logs_bloom s) (cs_order_root s) (cs_confirm_root s)
    (cs_state_root s) (cs_receipt_root s) (cs_cycles_used s) (cs_proof s) [] (wrap64 0).
Notation ghost := (status * gmap (N * bytes) bytes * gmap hash (gmap bytes bytes))%type.

Section Replay.
  Context (digest : bytes -> hash) (root_of : gmap bytes bytes -> hash) (show : exec_err -> rstring)
          (verify : bytes -> bytes -> bytes -> bool) (shapes : nat -> shape).
  Notation PK := (1, wenc_hash (LATEST_PROOF_KEY digest)).
  Notation canons := (fun _ : nat => canon_order).

  Definition replay1 (chain : hash) (g : ghost) (b : block) : ghost :=
    let '(s, m, tr) := g in let '(id, e, pf, txs) := b in
    match Executor.from_root digest chain (cs_state_root s) tr id (cs_price s) (AUser (eh_proposer (ep_header e))) with
    | Ok x => match exec digest root_of show canons x txs with
              | Ok (rp, x') => (new_status digest shapes s id e pf rp, apply_writes m (applied_writes digest e rp txs), x_db x')
              | _ => g
              end
    | _ => g
    end.
  Definition rel (n : node) (g : ghost) : Prop :=
    core (nd_status n) = g.1.1 /\ (forall k, k <> PK -> (nd_disk n).1 !! k = g.1.2 !! k) /\ (nd_disk n).2 = g.2.

  Lemma apply1_off (K : dbkey) (a b : db) p : (forall k, k <> K -> a !! k = b !! k) -> forall k, k <> K -> apply1 a p !! k = apply1 b p !! k.
  Proof.
    intros H k Hk. unfold apply1. destruct (snd p) as [v|].
    - destruct (decide (fst p = k)) as [->|E]; [rewrite !lookup_insert; reflexivity|rewrite !lookup_insert_ne by exact E; auto].
    - destruct (decide (fst p = k)) as [->|E]; [rewrite !lookup_delete; reflexivity|rewrite !lookup_delete_ne by exact E; auto].
  Qed.
  Lemma apply_write_off (K : dbkey) w : forall a b : db, (forall k, k <> K -> a !! k = b !! k) -> forall k, k <> K -> apply_write a w !! k = apply_write b w !! k.
  Proof.
    unfold apply_write. induction w as [|p w IH]; intros a b H; cbn [fold_left]; [exact H|]. apply IH. apply apply1_off, H.
  Qed.
  Lemma apply_writes_off (K : dbkey) ws : forall a b : db, (forall k, k <> K -> a !! k = b !! k) -> forall k, k <> K -> apply_writes a ws !! k = apply_writes b ws !! k.
  Proof.
    unfold apply_writes. induction ws as [|w ws IH]; intros a b H; cbn [fold_left]; [exact H|]. apply IH. apply apply_write_off, H.
  Qed.

  Section One.
    Context (cf : config).
    Notation run_call := (run_call digest root_of show verify shapes cf).

    (** A commit whose execution succeeds is applied. *)
    Lemma rest_done os sent n id p pf txs x rp x' : nd_busy n = Committing id p pf txs ->
      Executor.from_root digest (cf_chain_id cf) (cs_state_root (nd_status n)) (nd_disk n).2 id (cs_price (nd_status n))
        (AUser (eh_proposer (ep_header (pl_epoch p)))) = Ok x ->
      exec digest root_of show os x txs = Ok (rp, x') ->
      nd_status (run_call (CallCommitRest os sent) n).1.2 = new_status digest shapes (nd_status n) id (pl_epoch p) pf rp /\
      nd_disk (run_call (CallCommitRest os sent) n).1.2 = (apply_writes (nd_disk n).1 (applied_writes digest (pl_epoch p) rp txs), x_db x').
    Proof.
      intros Eb Ex Ee. destruct (run_call (CallCommitRest os sent) n) as [[r n'] t] eqn:E. cbn [fst snd]. revert E.
      cbn [Consensus.run_call]. unfold commit_finish. unfold abind at 1. unfold abind at 1. unfold aget at 1. rewrite Eb.
      unfold abind at 1. unfold aupd at 1. unfold abind at 1. unfold execute. unfold abind at 1. unfold aget at 1.
      cbn [nd_disk set_busy]. rewrite Ex. cbn [map_err]. unfold abind at 1. unfold alift at 1.
      unfold abind at 1. unfold alift at 1. rewrite Ee. cbn [map_err]. unfold abind at 1. unfold apersist at 1. unfold aret at 1.
      unfold abind at 1. rewrite update_status_out. unfold abind at 1. unfold aupd at 1. unfold abind at 1. unfold alift at 1.
      destruct sent as [[]|e|]; unfold aupd, aret; intros [= <- <- <-]; split; reflexivity.
    Qed.

    Lemma rest_step os sent n g : rel n g -> (forall i, order_ok (os i)) ->
      Forall (fun x => clash_free root_of (tries_of x)) (call_execs digest root_of show cf n (CallCommitRest os sent)) ->
      rel (run_call (CallCommitRest os sent) n).1.2
        (fold_left (replay1 (cf_chain_id cf)) (handed_at (Up n) (EvCall (CallCommitRest os sent))) g).
    Proof.
      intros (Hs & Hm & Ht) Ho Hc. destruct g as [[s m] tr]. cbn [fst snd] in Hs, Hm, Ht. unfold handed_at.
      destruct (run_call (CallCommitRest os sent) n) as [[r n'] t] eqn:E. cbn [fst snd].
      pose proof E as E0. apply call_rest in E0 as [r1 E0].
      destruct (nd_busy n) as [|id p pf txs|] eqn:Eb.
      1,3: destruct E0 as [|? ? ? ? ? Eb'|? ? ? ? ? ? ? Eb']; [split; [|split]; assumption|congruence..].
      cbn [fold_left]. unfold replay1. unfold call_execs in Hc. rewrite Eb in Hc. unfold run_block in Hc.
      assert (cs_state_root s = cs_state_root (nd_status n)) as Er by (rewrite <- Hs; reflexivity).
      assert (cs_price s = cs_price (nd_status n)) as Ep by (rewrite <- Hs; reflexivity).
      rewrite Er, Ep. rewrite Ht in Hc.
      assert ((forall y, executed digest root_of show cf os (nd_disk n).2 (cs_state_root (nd_status n)) id (cs_price (nd_status n))
        (AUser (eh_proposer (ep_header (pl_epoch p)))) txs y.1 y.2 -> False) -> rel n' (s, m, tr)) as Hsame.
      { intros Hno. destruct E0 as [|? ? ? ? ? Eb'|id0 p0 pf0 txs0 rp0 tr0 l0 Eb' Hx]; [split; [|split]; assumption| |].
        - split; [|split]; cbn [nd_status nd_disk set_busy]; assumption.
        - rewrite Eb in Eb'. injection Eb' as <- <- <- <-. destruct (Hno (rp0, tr0) Hx). }
      destruct (Executor.from_root _ _ _ _ _ _ _) as [x|x|] eqn:Ex.
      2-3: apply Hsame; intros [rp tr'] (x1 & x2 & H1 & _); rewrite Ht in H1; congruence.
      pose proof (exec_canon digest root_of show os x txs Ho) as Hcan.
      destruct (exec digest root_of show canons x txs) as [[rp' x'']|e|] eqn:Ec.
      2-3: apply Hsame; intros [rp tr'] (x1 & x2 & H1 & H2 & _); rewrite Ht in H1; assert (x1 = x) as -> by congruence; rewrite H2 in Hcan; exact Hcan.
      destruct (exec digest root_of show os x txs) as [[rp x']|e|] eqn:Ee; [|destruct Hcan..].
      destruct Hcan as (-> & _ & Heq). apply Forall_cons in Hc as [Hc _]. specialize (Heq Hc). subst x''.
      rewrite <- Ht in Ex. destruct (rest_done os sent n id p pf txs x rp' x' Eb Ex Ee) as [A B]. rewrite E in A, B. cbn [fst snd] in A, B.
      split; [|split]; cbn [fst snd].
      - rewrite A, <- Hs. reflexivity.
      - rewrite B. cbn [fst]. apply apply_writes_off, Hm.
      - rewrite B. reflexivity.
    Qed.

    Lemma plain_step n g e : rel n g -> plain_event e -> orders_ok (Up n) e ->
      Forall (fun x => clash_free root_of (tries_of x)) (event_execs digest root_of show cf (Up n) e) ->
      exists n', happens digest root_of show verify shapes cf (Up n) e = Up n' /\
        rel n' (fold_left (replay1 (cf_chain_id cf)) (handed_at (Up n) e) g).
    Proof.
      intros Hr Hp Ho Hc. destruct e as [c| | |]; try destruct Hp. cbn [happens].
      destruct (run_call c n) as [[r n'] t] eqn:E. exists n'. split; [reflexivity|].
      destruct (light_call c) eqn:L.
      { apply light_call_out in E as [(p & x & -> & _) ->]; [|exact L].
        assert (handed_at (Up n) (EvCall c) = []) as -> by (destruct c; try discriminate L; reflexivity). exact Hr. }
      destruct c as [| | |id cm|os sent|msg first|os re rt]; try discriminate L; try destruct Hp; clear L.
      - cbn [handed_at fold_left]. apply call_commit in E as [r1 E].
        assert (forall p, rel (set_disk n (with_proof digest (nd_disk n) p)) g) as Hw.
        { intros p. destruct Hr as (A & B & C). split; [exact A|]. split; [|exact C]. intros k Hk. rewrite with_proof_db.
          cbn [nd_disk set_disk fst]. unfold w_proof. rewrite lookup_insert_ne by congruence. apply B, Hk. }
        destruct E as [r1 Hr1|eh r1 Hr1 Ei Eh|eh txs Ei Eh Eg]; [exact Hr|apply Hw|].
        specialize (Hw (commit_proof cm eh)). exact Hw.
      - pose proof (rest_step os sent n g Hr Ho Hc) as H. rewrite E in H. exact H.
    Qed.
    Lemma plain_run l : forall n g, rel n g -> Forall plain_event l ->
      along digest root_of show verify shapes cf orders_ok (Up n) l ->
      Forall (fun x => clash_free root_of (tries_of x)) (execs_seen digest root_of show verify shapes cf (Up n) l) ->
      exists n', fold_left (happens digest root_of show verify shapes cf) l (Up n) = Up n' /\
        rel n' (fold_left (replay1 (cf_chain_id cf)) (handed digest root_of show verify shapes cf (Up n) l) g).
    Proof.
      induction l as [|e l IH]; intros n g Hr Hp Ho Hc; [exists n; split; [reflexivity|exact Hr]|].
      apply Forall_cons in Hp as [Hp1 Hp2]. cbn [along] in Ho. destruct Ho as [Ho1 Ho2]. cbn [execs_seen] in Hc. apply Forall_app in Hc as [Hc1 Hc2].
      destruct (plain_step n g e Hr Hp1 Ho1 Hc1) as (n1 & E & Hr1). cbn [fold_left handed]. rewrite E in *. rewrite fold_left_app.
      apply IH; assumption.
    Qed.
  End One.
End Replay.

Section Boot.
  Context (digest : bytes -> hash) (root_of : gmap bytes bytes -> hash) (show : exec_err -> rstring)
          (verify : bytes -> bytes -> bytes -> bool) (shapes : nat -> shape).
  Notation happens := (happens digest root_of show verify shapes).
  Notation PK := (1, wenc_hash (LATEST_PROOF_KEY digest)).

  Lemma from_root_sim ch r d e p cb cb' :
    match Executor.from_root digest ch r d e p cb, Executor.from_root digest ch r d e p cb' with
    | Ok x, Ok y => exec_sim x y
    | Err a, Err b => a = b
    | Panic, Panic => True
    | _, _ => False
    end.
  Proof.
    unfold Executor.from_root. destruct (if decide _ then _ else _) as [T|x|]; cbn [rbind]; auto.
    destruct (gen_contract_state account_schema _ _ _) as [A|x|]; cbn [rbind]; auto.
    destruct (gen_contract_state asset_schema _ _ _) as [B|x|]; cbn [rbind]; auto. repeat split.
  Qed.

  Lemma genesis_state_same cf cf' a b c d tr : same_rules cf cf' ->
    order_ok a -> order_ok b -> order_ok c -> order_ok d ->
    Forall (fun x => clash_free root_of (tries_of x)) (run_genesis digest root_of cf a b tr) ->
    genesis_state digest root_of cf a b tr = genesis_state digest root_of cf' c d tr.
  Proof.
    intros (E1 & E2 & E3) Ha Hb Hc Hd Hx. unfold genesis_state. unfold run_genesis in Hx.
    pose proof (from_root_sim (cf_chain_id cf) (hash_from_empty digest) tr (wrap64 0) (cf_price cf) (AUser (cf_self cf)) (AUser (cf_self cf'))) as Hs.
    rewrite <- E1, <- E2, <- E3.
    destruct (Executor.from_root digest (cf_chain_id cf) (hash_from_empty digest) tr (wrap64 0) (cf_price cf) (AUser (cf_self cf))) as [x|x|];
      destruct (Executor.from_root digest (cf_chain_id cf) (hash_from_empty digest) tr (wrap64 0) (cf_price cf) (AUser (cf_self cf'))) as [y|y|];
      try contradiction; cbn [map_err rbind]; [|congruence|reflexivity].
    pose proof (genesis_orders digest root_of a b c d x (cf_genesis cf) Ha Hb Hc Hd) as H1.
    pose proof (genesis_sim digest root_of c d x y (cf_genesis cf) Hs) as H2.
    destruct (create_genesis digest root_of a b x (cf_genesis cf)) as [[r1 x1]|e1|];
      destruct (create_genesis digest root_of c d x (cf_genesis cf)) as [[r2 x2]|e2|]; try contradiction;
      destruct (create_genesis digest root_of c d y (cf_genesis cf)) as [[r3 x3]|e3|]; try contradiction; cbn [map_err rbind]; [|congruence|reflexivity].
    destruct H1 as (-> & _ & H1). apply Forall_cons in Hx as [Hx _]. rewrite (H1 Hx). destruct H2 as (-> & _ & _ & _ & _ & ->). reflexivity.
  Qed.

  Lemma down_stays cf l : Forall plain_event l -> forall d, exists d', fold_left (happens cf) l (Down d) = Down d'.
  Proof.
    induction 1 as [|e l He _ IH]; intros d; cbn [fold_left]; [eauto|]. destruct e; try destruct He. cbn [Consensus.happens]. apply IH.
  Qed.

  Lemma boot_same cf cf' a b c d n n' : same_rules cf cf' ->
    order_ok a -> order_ok b -> order_ok c -> order_ok d ->
    Forall (fun x => clash_free root_of (tries_of x)) (run_genesis digest root_of cf a b ∅) ->
    happens cf (Down (∅, ∅)) (EvBoot a b) = Up n -> happens cf' (Down (∅, ∅)) (EvBoot c d) = Up n' ->
    core (nd_status n) = core (nd_status n') /\ nd_disk n = nd_disk n'.
  Proof.
    intros Hr Ha Hb Hc Hd Hx. pose proof (genesis_state_same cf cf' a b c d ∅ Hr Ha Hb Hc Hd Hx) as Hg. cbn [Consensus.happens].
    destruct Hr as (E1 & E2 & E3).
    destruct (handle_init digest root_of cf a b (∅, ∅)) as [r1 t1] eqn:I1. destruct (handle_init digest root_of cf' c d (∅, ∅)) as [r2 t2] eqn:I2.
    apply handle_init_out in I1, I2.
    destruct I1 as [[-> I1]|(_ & root & tr & Eg & -> & ->)].
    { destruct r1 as [d1|x|]; [|discriminate..]. rewrite (I1 d1 eq_refl). discriminate. }
    destruct I2 as [[-> I2]|(_ & root' & tr' & Eg' & -> & ->)].
    { intros _. destruct r2 as [d1|x|]; [|discriminate..]. rewrite (I2 d1 eq_refl). discriminate. }
    cbn [fst snd] in *. assert (@Ok cn_err _ (root, tr) = Ok (root', tr')) as [= <- <-] by (rewrite <- Eg, <- Eg'; exact Hg).
    assert (genesis_writes digest cf root = genesis_writes digest cf' root) as <-.
    { unfold genesis_writes, genesis_epoch. rewrite E1, E2. reflexivity. }
    set (dd := List.last _ _). unfold start. destruct (get_latest_epoch rocks_col digest dd.1) as [e|x|]; [|discriminate..].
    intros [= <-] [= <-]. cbn [nd_status nd_disk]. split; [|reflexivity]. unfold core, start_status. cbn. rewrite E3. reflexivity.
  Qed.

  Lemma rel_agree n n' g : LATEST_EPOCH_KEY digest <> LATEST_PROOF_KEY digest -> rel digest n g -> rel digest n' g -> agree digest n n'.
  Proof.
    intros Hk (A & B & C) (A' & B' & C'). rewrite <- A' in A. rewrite <- C' in C.
    assert (forall k, k <> PK -> (nd_disk n).1 !! k = (nd_disk n').1 !! k) as D by (intros k K; rewrite B, B' by exact K; reflexivity).
    split.
    1-6: injection A; intros; assumption.
    - unfold get_latest_epoch, get_or_none, ad_get, ad_key. cbn [LatestEpochSchema sc_cat sc_kenc sc_vdec rocks_col].
      rewrite D; [reflexivity|]. intros [= H]. apply wenc_hash_inj in H. congruence.
    - intros i. unfold get_epoch_by_epoch_id, get_or_none, ad_get, ad_key. cbn [EpochSchema sc_cat sc_kenc sc_vdec rocks_col].
      rewrite D; [reflexivity|]. intros [= H]. exact (epoch_id_hash_disjoint _ _ H).
    - intros h. unfold get_transaction_by_hash, get_or_none, ad_get, ad_key. cbn [TransactionSchema sc_cat sc_kenc sc_vdec rocks_col].
      rewrite D; [reflexivity|discriminate].
    - intros h. unfold get_receipt, get_or_none, ad_get, ad_key. cbn [ReceiptSchema sc_cat sc_kenc sc_vdec rocks_col].
      rewrite D; [reflexivity|discriminate].
    - intros; rewrite C; reflexivity.
  Qed.
End Boot.
