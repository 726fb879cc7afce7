(** * Blocks and genesis over the database. *)
From Verif Require Import Base BaseFacts Hex Types Rlp RlpFacts FixedCodec FixedCodecFacts CodecProps StateAdapter StateAdapterFacts AdapterProps
  Executor ExecSpec ExecutorFacts ExecOrder Mpt MptFacts MptDen MptCodec StorageSpec MptStore TrieSpec TrieFacts PropTrie DbExec DbFacts.
Local Open Scope N_scope.

Section Run.
  Context (digest : bytes -> hash) (show : exec_err -> rstring).
  Notation shows := (shows digest).
  Notation root := (mpt_root digest).
  Notation parts := (parts digest).
  Notation R := (R digest).
  Implicit Types (x : executor) (d : dexec) (o : iter_order) (q : dorder).

  Ltac fields := cbn [dset_acc dset_bank set_acc set_bank dx_chain_id dx_epoch_id dx_price dx_coinbase dx_top dx_acc dx_bank dx_db dx_log
     x_chain_id x_epoch_id x_price x_coinbase x_trie x_acc x_bank x_db].

  Lemma r_stash o q x d : order_ok o -> dorder_ok q -> R x d -> R (stash_all o x) (d_stash q d).
  Proof.
    intros [O1 O2] [Q1 Q2] []. unfold stash_all, d_stash. destruct (io_bank_first o); (constructor; fields; try assumption;
      (eapply rad_stash; [eassumption|first [apply O1|apply O2]|first [apply Q1|apply Q2]])).
  Qed.
  Lemma r_revert o x d : R x d -> R (revert_all o x) (d_revert d).
  Proof.
    intros []. unfold revert_all, d_revert. destruct (io_bank_first o); (constructor; fields; try assumption; apply rad_revert; assumption).
  Qed.
  Lemma stash_log q d : dx_log (d_stash q d) = dx_log d /\ dx_db (d_stash q d) = dx_db d.
  Proof. unfold d_stash. fields. rewrite !app_nil_r. auto. Qed.
  Lemma revert_log d : dx_log (d_revert d) = dx_log d /\ dx_db (d_revert d) = dx_db d.
  Proof. unfold d_revert. fields. rewrite !app_nil_r. auto. Qed.

  Definition agrees {A} (r : res exec_err (A * executor)) (n : res exec_err A * dexec) : Prop :=
    match r, n with
    | Ok (a, x), (Ok b, d) => a = b /\ R x d
    | Err e, (Err e', _) => e = e'
    | Panic, (Panic, _) => True
    | _, _ => False
    end.

  Lemma invoke_same x d t : R x d -> gen_invoke_ctx digest x t = d_invoke_ctx digest d t.
  Proof. intros []. unfold gen_invoke_ctx, d_invoke_ctx. rewrite r_chain, r_epoch, r_price, r_coin. reflexivity. Qed.

  Lemma tx_grows q d t : extends d (d_exec_tx digest show q d t).2 /\ dx_db (d_exec_tx digest show q d t).2 = dx_db d.
  Proof.
    unfold d_exec_tx. destruct (d_invoke_ctx digest d t) as [ictx|e|]; [|split; [apply extends_refl|reflexivity]..].
    destruct (same_dispatch digest t) as [G _]. specialize (G (d, ictx)). cbn [fst] in G. destruct G as [G1 G2].
    destruct (same_inc_nonce digest) as [I _].
    destruct (d_dispatch digest t (d, ictx)) as [[r|e|] [d1 c1]]; cbn [fst snd] in *.
    - destruct (stash_log q d1) as [L1 L2]. specialize (I (d_stash q d1, c1)). cbn [fst] in I. destruct I as [I1 I2].
      assert (extends d (d_stash q d1)) as E by (destruct G1 as [l El]; exists l; congruence).
      destruct (d_inc_nonce (d_stash q d1, c1)) as [[u|e|] [d2 c2]]; cbn [fst snd] in *; (split; [eapply extends_trans; eassumption|congruence]).
    - destruct (revert_log d1) as [L1 L2]. specialize (I (d_revert d1, c1)). cbn [fst] in I. destruct I as [I1 I2].
      assert (extends d (d_revert d1)) as E by (destruct G1 as [l El]; exists l; congruence).
      destruct (d_inc_nonce (d_revert d1, c1)) as [[u|e'|] [d2 c2]]; cbn [fst snd] in *; (split; [eapply extends_trans; eassumption|congruence]).
    - split; assumption.
  Qed.

  Lemma tx_same o q x d t : order_ok o -> dorder_ok q -> R x d -> quiet (d_exec_tx digest show q d t).2 ->
    agrees (exec_tx digest show o x t) (d_exec_tx digest show q d t).
  Proof.
    intros Ho Hq HR. unfold exec_tx, d_exec_tx. rewrite (invoke_same x d t HR).
    destruct (d_invoke_ctx digest d t) as [ictx|e|]; cbn [rbind]; [|reflexivity|exact (fun _ => I)].
    destruct (same_dispatch digest t) as [_ S1]. specialize (S1 x d ictx HR).
    destruct (same_inc_nonce digest) as [I S2].
    destruct (dispatch digest t (x, ictx)) as [r0 [x1 c1']], (d_dispatch digest t (d, ictx)) as [[r|e|] [d1 c1]]; cbn [fst snd] in *.
    - specialize (I (d_stash q d1, c1)). cbn [fst] in I. destruct I as [I1 _]. intros Hfin.
      assert (quiet d1) as Hq1.
      { intros v Hv. rewrite <- (proj1 (stash_log q d1)) in Hv. revert v Hv. apply (quiet_back _ _ I1).
        destruct (d_inc_nonce (d_stash q d1, c1)) as [[u|e|] [d2 c2]]; exact Hfin. }
      destruct (S1 Hq1) as (-> & -> & HR1). cbn [rbind]. pose proof (r_stash o q _ _ Ho Hq HR1) as HR2.
      specialize (S2 (stash_all o x1) (d_stash q d1) c1 HR2).
      destruct (inc_nonce (stash_all o x1, c1)) as [r1 [x2 c2']], (d_inc_nonce (d_stash q d1, c1)) as [[u|e|] [d2 c2]]; cbn [fst snd] in *;
        destruct (S2 Hfin) as (-> & -> & HR3); cbn [rbind agrees]; [|reflexivity|exact I].
      split; [rewrite (r_price _ _ _ HR3); reflexivity|exact HR3].
    - specialize (I (d_revert d1, c1)). cbn [fst] in I. destruct I as [I1 _]. intros Hfin.
      assert (quiet d1) as Hq1.
      { intros v Hv. rewrite <- (proj1 (revert_log d1)) in Hv. revert v Hv. apply (quiet_back _ _ I1).
        destruct (d_inc_nonce (d_revert d1, c1)) as [[u|e'|] [d2 c2]]; exact Hfin. }
      destruct (S1 Hq1) as (-> & -> & HR1). cbn [rbind]. pose proof (r_revert o _ _ HR1) as HR2.
      specialize (S2 (revert_all o x1) (d_revert d1) c1 HR2).
      destruct (inc_nonce (revert_all o x1, c1)) as [r1 [x2 c2']], (d_inc_nonce (d_revert d1, c1)) as [[u|e'|] [d2 c2]]; cbn [fst snd] in *;
        destruct (S2 Hfin) as (-> & -> & HR3); cbn [rbind agrees]; [|reflexivity|exact I].
      split; [rewrite (r_price _ _ _ HR3); reflexivity|exact HR3].
    - intros Hfin. destruct (S1 Hfin) as (-> & _ & _). exact Logic.I.
  Qed.

  Lemma txs_grows ts : forall qs d, extends d (d_exec_txs digest show qs d ts).2 /\ dx_db (d_exec_txs digest show qs d ts).2 = dx_db d.
  Proof.
    induction ts as [|t ts IH]; intros qs d; [split; [apply extends_refl|reflexivity]|]. cbn [d_exec_txs].
    destruct (tx_grows (qs O) d t) as [E1 D1]. destruct (d_exec_tx digest show (qs O) d t) as [[r|e|] d1]; cbn [snd] in *; try (split; assumption).
    destruct (IH (fun n => qs (S n)) d1) as [E2 D2].
    destruct (d_exec_txs digest show (fun n => qs (S n)) d1 ts) as [[rs|e|] d2]; cbn [snd] in *; (split; [eapply extends_trans; eassumption|congruence]).
  Qed.
  Lemma txs_same ts : forall os qs x d, (forall n, order_ok (os n)) -> (forall n, dorder_ok (qs n)) -> R x d ->
    quiet (d_exec_txs digest show qs d ts).2 ->
    agrees (exec_txs digest show os x ts) (d_exec_txs digest show qs d ts).
  Proof.
    induction ts as [|t ts IH]; intros os qs x d Ho Hq HR; cbn [exec_txs d_exec_txs]; [intros _; cbn [agrees]; auto|].
    pose proof (tx_same (os O) (qs O) x d t (Ho O) (Hq O) HR) as H1.
    destruct (d_exec_tx digest show (qs O) d t) as [[r|e|] d1]; cbn [snd] in *.
    - destruct (txs_grows ts (fun n => qs (S n)) d1) as [E2 _].
      assert (quiet (match d_exec_txs digest show (fun n => qs (S n)) d1 ts with (Ok rs, d2) => (Ok (r :: rs), d2) | (Err e, d2) => (Err e, d2) | (Panic, d2) => (Panic, d2) end).2 ->
              quiet (d_exec_txs digest show (fun n => qs (S n)) d1 ts).2) as Hsame.
      { destruct (d_exec_txs digest show (fun n => qs (S n)) d1 ts) as [[rs|e|] d2]; exact (fun X => X). }
      intros Hfin. apply Hsame in Hfin. specialize (H1 (quiet_back _ _ E2 Hfin)). clear Hsame.
      destruct (exec_tx digest show (os O) x t) as [[r0 x1]|e|]; cbn [agrees] in H1; [|destruct H1..]. destruct H1 as [-> HR1]. cbn [rbind].
      specialize (IH (fun n => os (S n)) (fun n => qs (S n)) x1 d1 (fun n => Ho (S n)) (fun n => Hq (S n)) HR1 Hfin).
      destruct (d_exec_txs digest show (fun n => qs (S n)) d1 ts) as [[rs|e|] d2], (exec_txs digest show (fun n => os (S n)) x1 ts) as [[rs0 x2]|e'|];
        cbn [agrees rbind] in *; try (destruct IH; fail); try exact IH. destruct IH as [-> HR2]. auto.
    - intros Hfin. specialize (H1 Hfin). destruct (exec_tx digest show (os O) x t) as [[r0 x1]|e'|]; cbn [agrees rbind] in *; try (destruct H1; fail); exact H1.
    - intros Hfin. specialize (H1 Hfin). destruct (exec_tx digest show (os O) x t) as [[r0 x1]|e'|]; cbn [agrees rbind] in *; try (destruct H1; fail); exact H1.
  Qed.

  (** The reward. *)
  Lemma pay_same fees : forall x d c, R x d -> quiet (d_pay digest (x_coinbase x) fees (d, c)).2.1 ->
    exists d', d_pay digest (x_coinbase x) fees (d, c) = (Ok tt, (d', c)) /\ R (pay_coinbase digest x fees) d'.
  Proof.
    induction fees as [|f fees IH]; intros x d c HR; [intros _; exists d; split; [reflexivity|exact HR]|].
    cbn [d_pay]. unfold dbind at 1 2. destruct (same_add digest (fee_asset_id f) (x_coinbase x) (fee_cycle f)) as [G Sm].
    specialize (Sm x d c HR). unfold add_balance, find_or_create, insert_account, put_acc, bind, ask_exec, ret in Sm. cbn [fst snd] in Sm.
    destruct (d_add_balance digest (fee_asset_id f) (x_coinbase x) (fee_cycle f) (d, c)) as [r [d1 c1]]; cbn [fst snd] in *.
    set (x1 := set_acc x _) in Sm. intros Hfin.
    assert (quiet d1) as Hq1.
    { destruct r as [u|e|]; [|exact Hfin|exact Hfin]. cbn [snd] in Hfin. clear -Hfin. revert d1 Hfin. generalize (x_coinbase x). intros cb.
      enough (forall d1, extends d1 (d_pay digest cb fees (d1, c1)).2.1) as He by (intros d1 Hf; exact (quiet_back _ _ (He d1) Hf)).
      clear. revert c1. induction fees as [|g fees IH]; intros c1 d1; [apply extends_refl|]. cbn [d_pay]. unfold dbind.
      destruct (same_add digest (fee_asset_id g) cb (fee_cycle g)) as [G _]. specialize (G (d1, c1)). cbn [fst] in G. destruct G as [G _].
      destruct (d_add_balance digest (fee_asset_id g) cb (fee_cycle g) (d1, c1)) as [[u|e|] [d2 c2]]; cbn [fst snd] in *; try exact G.
      eapply extends_trans; [exact G|apply IH]. }
    destruct (Sm Hq1) as (<- & <- & HR1). cbn [fst snd] in *. change (x_coinbase x) with (x_coinbase x1) in Hfin |- *.
    destruct (IH x1 d1 c HR1 Hfin) as (d' & -> & HR'). exists d'. split; [reflexivity|]. exact HR'.
  Qed.
  Lemma pay_grows cb fees : forall s0, extends s0.1 (d_pay digest cb fees s0).2.1 /\ dx_db (d_pay digest cb fees s0).2.1 = dx_db s0.1.
  Proof.
    induction fees as [|g fees IH]; intros s0; [split; [apply extends_refl|reflexivity]|]. cbn [d_pay]. unfold dbind.
    destruct (same_add digest (fee_asset_id g) cb (fee_cycle g)) as [G _]. specialize (G s0). destruct G as [G1 G2].
    destruct (d_add_balance digest (fee_asset_id g) cb (fee_cycle g) s0) as [[u|e|] s1]; cbn [fst snd] in *; try (split; assumption).
    destruct (IH s1) as [I1 I2]. split; [eapply extends_trans; eassumption|congruence].
  Qed.

  (** *** Commit *)
  (** The database holds the state with top trie [T], accounts [A], assets [B]. *)
  Record dholds (db : gmap hash bytes) (T : gmap bytes bytes) (A : accounts) (B : assets) : Prop := {
    dh_top : fair_map T /\ whole digest db T;
    dh_acc : fair_map (enc_map account_schema A) /\ whole digest db (enc_map account_schema A);
    dh_bank : fair_map (enc_map asset_schema B) /\ whole digest db (enc_map asset_schema B);
    dh_fits_acc : map_Forall (fun _ v => fits (enc_account v)) A;
    dh_fits_bank : map_Forall (fun _ v => fits (enc_asset v)) B;
    dh_at_acc : T !! ACCOUNT_CONTRACT_ADDRESS = Some (sbytes (root (enc_map account_schema A)));
    dh_at_bank : T !! BANK_CONTRACT_ADDRESS = Some (sbytes (root (enc_map asset_schema B))) }.
  Lemma dholds_mono db db' T A B : db ⊆ db' -> dholds db T A B -> dholds db' T A B.
  Proof. intros Hs [[] [] []]. constructor; try assumption; (split; [assumption|eapply whole_mono; eassumption]). Qed.

  Lemma root_entry (addr : bytes) (h : hash) : (length addr < 100)%nat -> fair_entry addr (sbytes h).
  Proof.
    intros Hl. pose proof (sized_len h) as L. split; [lia|]. split; [intros E; rewrite E in L; discriminate L|]. rewrite L. lia.
  Qed.
  Lemma shows_insert db m n k v : shows db m n -> fair_entry k v -> exists n', tr_insert db n k v = Some n' /\ shows db (<[k := v]> m) n'.
  Proof.
    intros (t & Hsh & Hr & Hf) He. destruct (insert_rep digest db n t m k v Hsh Hr (proj1 (proj2 He))) as (n' & t' & E & Hsh' & Hr').
    exists n'. split; [exact E|]. exists t'. split; [exact Hsh'|]. split; [exact Hr'|]. apply map_Forall_insert_2; assumption.
  Qed.
  Lemma coll_sub (l l' : list bytes) : (forall b, b ∈ l -> b ∈ l') -> no_collision digest l' -> no_collision digest l.
  Proof. intros Hs Hc a b Ha Hb. apply Hc; auto. Qed.

  Lemma commit_acc_same q x d : dorder_ok q -> R x d -> addressed digest (dx_db d) ->
    let A := ad_stash (x_acc x) ∪ ad_trie (x_acc x) in
    no_collision digest (parts (enc_map account_schema A) ++ values (dx_db d)) ->
    exists d', d_commit_acc digest q d = Some d' /\ dx_db d ⊆ dx_db d' /\ addressed digest (dx_db d') /\ dx_log d' = dx_log d /\
      (forall v, v ∈ values (dx_db d') -> v ∈ parts (enc_map account_schema A) \/ v ∈ values (dx_db d)) /\
      whole digest (dx_db d') (enc_map account_schema A) /\ fair_map (enc_map account_schema A) /\ map_Forall (fun _ v => fits (enc_account v)) A /\
      R (MkExec (x_chain_id x) (x_epoch_id x) (x_price x) (x_coinbase x) (<[ACCOUNT_CONTRACT_ADDRESS := sbytes (root (enc_map account_schema A))]> (x_trie x))
           (MkAdapter A (ad_cache (x_acc x)) ∅) (x_bank x) (x_db x)) d'.
  Proof.
    intros [Q1 _] [] Ha A Hc. unfold d_commit_acc.
    destruct (rad_commit digest account_schema good_account_schema _ _ _ (do_acc q (da_stash (dx_acc d))) r_acc (Q1 _) Ha Hc) as (db' & a' & -> & Hsub & Ha' & Hv & Hw & Hf & HA & HR). fold A in Hv, Hw, Hf, HA, HR |- *.
    destruct (shows_insert db' (x_trie x) (dx_top d) ACCOUNT_CONTRACT_ADDRESS (sbytes (root (enc_map account_schema A)))) as (n' & -> & Hn');
      [eapply shows_mono; eassumption|apply root_entry; cbn; lia|].
    eexists. split; [reflexivity|]. unfold dset_top. fields. rewrite app_nil_r.
    split; [exact Hsub|]. split; [exact Ha'|]. split; [reflexivity|]. split; [exact Hv|]. split; [exact Hw|]. split; [exact Hf|]. split; [exact HA|].
    constructor; fields; try assumption. eapply rad_mono; eassumption.
  Qed.
  Lemma commit_bank_same q x d : dorder_ok q -> R x d -> addressed digest (dx_db d) ->
    let B := ad_stash (x_bank x) ∪ ad_trie (x_bank x) in
    no_collision digest (parts (enc_map asset_schema B) ++ values (dx_db d)) ->
    exists d', d_commit_bank digest q d = Some d' /\ dx_db d ⊆ dx_db d' /\ addressed digest (dx_db d') /\ dx_log d' = dx_log d /\
      (forall v, v ∈ values (dx_db d') -> v ∈ parts (enc_map asset_schema B) \/ v ∈ values (dx_db d)) /\
      whole digest (dx_db d') (enc_map asset_schema B) /\ fair_map (enc_map asset_schema B) /\ map_Forall (fun _ v => fits (enc_asset v)) B /\
      R (MkExec (x_chain_id x) (x_epoch_id x) (x_price x) (x_coinbase x) (<[BANK_CONTRACT_ADDRESS := sbytes (root (enc_map asset_schema B))]> (x_trie x))
           (x_acc x) (MkAdapter B (ad_cache (x_bank x)) ∅) (x_db x)) d'.
  Proof.
    intros [_ Q1] [] Ha B Hc. unfold d_commit_bank.
    destruct (rad_commit digest asset_schema good_asset_schema _ _ _ (do_bank q (da_stash (dx_bank d))) r_bank (Q1 _) Ha Hc) as (db' & a' & -> & Hsub & Ha' & Hv & Hw & Hf & HA & HR). fold B in Hv, Hw, Hf, HA, HR |- *.
    destruct (shows_insert db' (x_trie x) (dx_top d) BANK_CONTRACT_ADDRESS (sbytes (root (enc_map asset_schema B)))) as (n' & -> & Hn');
      [eapply shows_mono; eassumption|apply root_entry; cbn; lia|].
    eexists. split; [reflexivity|]. unfold dset_top. fields. rewrite app_nil_r.
    split; [exact Hsub|]. split; [exact Ha'|]. split; [reflexivity|]. split; [exact Hv|]. split; [exact Hw|]. split; [exact Hf|]. split; [exact HA|].
    constructor; fields; try assumption. eapply rad_mono; eassumption.
  Qed.

  Definition stored_in (x : executor) (db : gmap hash bytes) : Prop := dholds db (x_trie x) (committed x) (committed_assets x).
  Lemma commit_same o q x d : order_ok o -> dorder_ok q -> R x d -> addressed digest (dx_db d) ->
    no_collision digest (flat_map parts (tries_of (commit root o x).2) ++ values (dx_db d)) ->
    exists d', d_commit digest q d = Some ((commit root o x).1, d') /\ R (commit root o x).2 d' /\ dx_log d' = dx_log d /\
      dx_db d ⊆ dx_db d' /\ addressed digest (dx_db d') /\ stored_in (commit root o x).2 (dx_db d') /\
      (forall v, v ∈ values (dx_db d') -> v ∈ flat_map parts (tries_of (commit root o x).2) \/ v ∈ values (dx_db d)).
  Proof.
    intros Ho Hq HR Ha. rewrite (commit_eq root o x Ho). cbn zeta. cbn [fst snd]. unfold stored_in, tries_of, committed, committed_assets. fields. cbn [ad_trie].
    set (A := ad_stash (x_acc x) ∪ ad_trie (x_acc x)). set (B := ad_stash (x_bank x) ∪ ad_trie (x_bank x)).
    set (T := top_after root x A B). set (eA := enc_map account_schema A). set (eB := enc_map asset_schema B). intros Hc.
    assert (forall v, v ∈ flat_map parts [T; eA; eB] <-> v ∈ parts T \/ v ∈ parts eA \/ v ∈ parts eB) as Hin.
    { intros v. cbn [flat_map]. rewrite app_nil_r, !elem_of_app. reflexivity. }
    set (xe := MkExec (x_chain_id x) (x_epoch_id x) (x_price x) (x_coinbase x) T (MkAdapter A (ad_cache (x_acc x)) ∅) (MkAdapter B (ad_cache (x_bank x)) ∅) (x_db x)).
    assert (exists d2, (if do_bank_first q then match d_commit_bank digest q d with Some d1 => d_commit_acc digest q d1 | None => None end
              else match d_commit_acc digest q d with Some d1 => d_commit_bank digest q d1 | None => None end) = Some d2 /\
            dx_db d ⊆ dx_db d2 /\ addressed digest (dx_db d2) /\ dx_log d2 = dx_log d /\
            (forall v, v ∈ values (dx_db d2) -> v ∈ parts eA \/ v ∈ parts eB \/ v ∈ values (dx_db d)) /\
            whole digest (dx_db d2) eA /\ fair_map eA /\ map_Forall (fun _ v => fits (enc_account v)) A /\
            whole digest (dx_db d2) eB /\ fair_map eB /\ map_Forall (fun _ v => fits (enc_asset v)) B /\ R xe d2) as
      (d2 & E2 & Hs2 & Ha2 & L2 & V2 & WA & FA & IA & WB & FB & IB & HR2).
    { destruct (do_bank_first q).
      - destruct (commit_bank_same q x d Hq HR Ha) as (d1 & -> & Hs1 & Ha1 & L1 & V1 & W1 & F1 & I1 & HR1).
        { eapply coll_sub; [|exact Hc]. intros v Hv. rewrite elem_of_app, Hin. apply elem_of_app in Hv as [Hv|Hv]; auto. }
        destruct (commit_acc_same q _ d1 Hq HR1 Ha1) as (d2 & -> & Hs2 & Ha2 & L2 & V2 & W2 & F2 & I2 & HR2).
        { fields. eapply coll_sub; [|exact Hc]. intros v Hv. rewrite elem_of_app, Hin. apply elem_of_app in Hv as [Hv|Hv]; [auto|].
          destruct (V1 v Hv); auto. }
        revert V2 W2 F2 I2 HR2. fields. fold A eA. intros V2 W2 F2 I2 HR2.
        exists d2. split; [reflexivity|]. split; [etransitivity; eassumption|]. split; [exact Ha2|]. split; [congruence|].
        split; [intros v Hv; destruct (V2 v Hv) as [H|H]; [auto|destruct (V1 v H); auto]|].
        split; [exact W2|]. split; [exact F2|]. split; [exact I2|]. split; [exact (whole_mono digest _ _ _ Hs2 W1)|]. split; [exact F1|]. split; [exact I1|].
        exact HR2.
      - destruct (commit_acc_same q x d Hq HR Ha) as (d1 & -> & Hs1 & Ha1 & L1 & V1 & W1 & F1 & I1 & HR1).
        { eapply coll_sub; [|exact Hc]. intros v Hv. rewrite elem_of_app, Hin. apply elem_of_app in Hv as [Hv|Hv]; auto. }
        destruct (commit_bank_same q _ d1 Hq HR1 Ha1) as (d2 & -> & Hs2 & Ha2 & L2 & V2 & W2 & F2 & I2 & HR2).
        { fields. eapply coll_sub; [|exact Hc]. intros v Hv. rewrite elem_of_app, Hin. apply elem_of_app in Hv as [Hv|Hv]; [auto|].
          destruct (V1 v Hv); auto. }
        revert V2 W2 F2 I2 HR2. fields. fold B eB. intros V2 W2 F2 I2 HR2.
        exists d2. split; [reflexivity|]. split; [etransitivity; eassumption|]. split; [exact Ha2|]. split; [congruence|].
        split; [intros v Hv; destruct (V2 v Hv) as [H|H]; [auto|destruct (V1 v H); auto]|].
        split; [exact (whole_mono digest _ _ _ Hs2 W1)|]. split; [exact F1|]. split; [exact I1|]. split; [exact W2|]. split; [exact F2|]. split; [exact I2|].
        assert (E : <[BANK_CONTRACT_ADDRESS:=sbytes (root eB)]> (<[ACCOUNT_CONTRACT_ADDRESS:=sbytes (root eA)]> (x_trie x)) = T)
          by (unfold T, top_after; apply insert_commute; discriminate).
        unfold xe. rewrite <- E. exact HR2. }
    unfold d_commit. rewrite E2. destruct (r_top _ _ _ HR2) as (t & Hsh & Hr & HfT). cbn [x_trie xe] in Hr, HfT.
    destruct (commit_rep digest (dx_db d2) (dx_top d2) t T Hsh Hr HfT Ha2) as (db' & -> & Hs3 & Ha3 & WT & V3).
    { eapply coll_sub; [|exact Hc]. intros v Hv. rewrite elem_of_app, Hin. apply elem_of_app in Hv as [Hv|Hv]; [auto|].
      destruct (V2 v Hv) as [H|[H|H]]; auto. }
    eexists. split; [reflexivity|]. unfold dset_top. fields.
    assert (T !! ACCOUNT_CONTRACT_ADDRESS = Some (sbytes (root eA))) as TA by (apply lookup_insert).
    assert (T !! BANK_CONTRACT_ADDRESS = Some (sbytes (root eB))) as TB by (unfold T, top_after; rewrite lookup_insert_ne by discriminate; apply lookup_insert).
    split; [|split; [exact L2|split; [etransitivity; eassumption|split; [exact Ha3|split]]]].
    - destruct HR2. constructor; fields; try assumption.
      + exists (tree_of T). split; [apply whole_shape; assumption|]. split; [apply fair_tree; assumption|exact HfT].
      + exact (rad_mono digest account_schema _ _ _ _ Hs3 r_acc).
      + exact (rad_mono digest asset_schema _ _ _ _ Hs3 r_bank).
    - constructor; try assumption; (split; [assumption|]); [exact WT|exact (whole_mono digest _ _ _ Hs3 WA)|exact (whole_mono digest _ _ _ Hs3 WB)].
    - intros v Hv. rewrite Hin. destruct (V3 v Hv) as [H|H]; [auto|]. destruct (V2 v H) as [H'|[H'|H']]; auto.
  Qed.
  Lemma d_commit_log q d r d' : d_commit digest q d = Some (r, d') -> dx_log d' = dx_log d.
  Proof.
    assert (forall d d', d_commit_acc digest q d = Some d' -> dx_log d' = dx_log d) as HA.
    { intros d0 d0'. unfold d_commit_acc. destruct (da_commit digest _ _ _) as [[[r0 db0] a0]|]; [|discriminate].
      destruct (tr_insert _ _ _ _); [|discriminate]. intros [= <-]. unfold dset_top. fields. apply app_nil_r. }
    assert (forall d d', d_commit_bank digest q d = Some d' -> dx_log d' = dx_log d) as HB.
    { intros d0 d0'. unfold d_commit_bank. destruct (da_commit digest _ _ _) as [[[r0 db0] a0]|]; [|discriminate].
      destruct (tr_insert _ _ _ _); [|discriminate]. intros [= <-]. unfold dset_top. fields. apply app_nil_r. }
    unfold d_commit. set (y := if do_bank_first q then _ else _). destruct y as [d2|] eqn:E; [|discriminate].
    assert (dx_log d2 = dx_log d) as E2.
    { unfold y in E. destruct (do_bank_first q).
      - destruct (d_commit_bank digest q d) as [d1|] eqn:E1; [|discriminate]. rewrite (HA _ _ E). apply HB, E1.
      - destruct (d_commit_acc digest q d) as [d1|] eqn:E1; [|discriminate]. rewrite (HB _ _ E). apply HA, E1. }
    destruct (tr_commit digest (dx_db d2) (dx_top d2)) as [[r0 db0] [n|]]; [|discriminate]. intros [= _ <-]. exact E2.
  Qed.

  (** *** exec, create_genesis, from_root *)
  Lemma exec_same os qs x d ts : (forall n, order_ok (os n)) -> (forall n, dorder_ok (qs n)) -> R x d -> addressed digest (dx_db d) ->
    quiet (d_exec digest show qs d ts).2 ->
    (forall resp x', exec digest root show os x ts = Ok (resp, x') -> no_collision digest (flat_map parts (tries_of x') ++ values (dx_db d))) ->
    match exec digest root show os x ts with
    | Ok (resp, x') => exists d', d_exec digest show qs d ts = (Ok resp, d') /\ dx_db d ⊆ dx_db d' /\ addressed digest (dx_db d') /\
        stored_in x' (dx_db d') /\ (forall v, v ∈ values (dx_db d') -> v ∈ flat_map parts (tries_of x') \/ v ∈ values (dx_db d))
    | Err e => exists d', d_exec digest show qs d ts = (Err e, d') /\ dx_db d' = dx_db d
    | Panic => exists d', d_exec digest show qs d ts = (Panic, d') /\ dx_db d' = dx_db d
    end.
  Proof.
    intros Ho Hq HR Ha Hfin Hc. unfold exec, d_exec in *.
    pose proof (txs_same ts (fun n => os (S n)) (fun n => qs (S n)) x d (fun n => Ho (S n)) (fun n => Hq (S n)) HR) as H1.
    destruct (txs_grows ts (fun n => qs (S n)) d) as [_ Dg].
    destruct (d_exec_txs digest show (fun n => qs (S n)) d ts) as [[rs|e|] d1]; cbn [fst snd] in *.
    - pose proof (pay_grows (dx_coinbase d1) (all_cycles_used rs) (d1, no_ctx d1)) as [Ep Dp]. cbn [fst] in Ep, Dp.
      assert (quiet (d_pay digest (dx_coinbase d1) (all_cycles_used rs) (d1, no_ctx d1)).2.1) as Hqp.
      { destruct (d_pay digest (dx_coinbase d1) (all_cycles_used rs) (d1, no_ctx d1)) as [[u|e|] [d2 c2]]; cbn [fst snd] in *; try exact Hfin.
        destruct (d_commit digest (qs O) d2) as [[r d3]|] eqn:Ec; cbn [snd] in Hfin; [|exact Hfin].
        unfold quiet in *. rewrite <- (d_commit_log _ _ _ _ Ec). exact Hfin. }
      specialize (H1 (quiet_back _ _ Ep Hqp)).
      destruct (exec_txs digest show (fun n => os (S n)) x ts) as [[rs0 x1]|e|]; cbn [agrees] in H1; [|destruct H1..]. destruct H1 as [-> HR1].
      cbn [rbind] in *. rewrite (r_coin _ _ _ HR1) in *.
      destruct (pay_same (all_cycles_used rs) x1 d1 (no_ctx d1) HR1 Hqp) as (d2 & E2 & HR2). rewrite E2 in *. cbn [fst snd] in *.
      set (x2 := pay_coinbase digest x1 (all_cycles_used rs)) in *.
      destruct (commit root (os O) x2) as [r x3] eqn:Ec. specialize (Hc _ _ eq_refl).
      assert (addressed digest (dx_db d2)) as Ha2 by (rewrite Dp, Dg; exact Ha).
      destruct (commit_same (os O) (qs O) x2 d2 (Ho O) (Hq O) HR2 Ha2) as (d3 & -> & _ & _ & Hs & Ha3 & Hst & Hv).
      { rewrite Ec, Dp, Dg. exact Hc. }
      rewrite Ec in *. cbn [fst snd] in *. exists d3. split; [reflexivity|]. rewrite Dp, Dg in *. auto.
    - specialize (H1 Hfin). destruct (exec_txs digest show (fun n => os (S n)) x ts) as [[rs0 x1]|e0|]; cbn [agrees rbind] in *; [destruct H1| |destruct H1].
      rewrite H1. exists d1. auto.
    - specialize (H1 Hfin). destruct (exec_txs digest show (fun n => os (S n)) x ts) as [[rs0 x1]|e0|]; cbn [agrees rbind] in *; [destruct H1|destruct H1|].
      exists d1. auto.
  Qed.

  Lemma genesis_same o1 o2 q1 q2 x d g : order_ok o1 -> order_ok o2 -> dorder_ok q1 -> dorder_ok q2 -> R x d -> addressed digest (dx_db d) ->
    quiet (d_create_genesis digest q1 q2 d g).2 ->
    (forall r x', create_genesis digest root o1 o2 x g = Ok (r, x') -> no_collision digest (flat_map parts (tries_of x') ++ values (dx_db d))) ->
    match create_genesis digest root o1 o2 x g with
    | Ok (r, x') => exists d', d_create_genesis digest q1 q2 d g = (Ok r, d') /\ dx_db d ⊆ dx_db d' /\ addressed digest (dx_db d') /\
        stored_in x' (dx_db d') /\ (forall v, v ∈ values (dx_db d') -> v ∈ flat_map parts (tries_of x') \/ v ∈ values (dx_db d))
    | Err e => exists d', d_create_genesis digest q1 q2 d g = (Err e, d') /\ dx_db d' = dx_db d
    | Panic => exists d', d_create_genesis digest q1 q2 d g = (Panic, d') /\ dx_db d' = dx_db d
    end.
  Proof.
    intros O1 O2 Q1 Q2 HR Ha Hfin Hc. unfold create_genesis, d_create_genesis in *.
    assert (d_genesis_ctx digest d = genesis_ctx digest x) as Ectx by (unfold d_genesis_ctx, genesis_ctx; destruct HR; congruence).
    rewrite Ectx in *. destruct (same_genesis digest g) as [G Sm]. specialize (G (d, genesis_ctx digest x)). destruct G as [_ G]. cbn [fst] in G.
    specialize (Sm x d (genesis_ctx digest x) HR).
    destruct (genesis_body digest g (x, genesis_ctx digest x)) as [r0 [x1 c1']], (d_genesis_body digest g (d, genesis_ctx digest x)) as [[u|e|] [d1 c1]]; cbn [fst snd] in *.
    - assert (quiet d1) as Hq1.
      { destruct (d_commit digest q2 (d_stash q1 d1)) as [[r d3]|] eqn:Ec; cbn [snd] in Hfin; [|exact Hfin].
        unfold quiet in *. rewrite (d_commit_log _ _ _ _ Ec), (proj1 (stash_log q1 d1)) in Hfin. exact Hfin. }
      destruct (Sm Hq1) as (-> & _ & HR1). pose proof (r_stash o1 q1 _ _ O1 Q1 HR1) as HR2.
      destruct (stash_log q1 d1) as [_ Ds].
      destruct (commit root o2 (stash_all o1 x1)) as [r x3] eqn:Ec. specialize (Hc _ _ eq_refl).
      assert (addressed digest (dx_db (d_stash q1 d1))) as Ha2 by (rewrite Ds, G; exact Ha).
      destruct (commit_same o2 q2 (stash_all o1 x1) (d_stash q1 d1) O2 Q2 HR2 Ha2) as (d3 & -> & _ & _ & Hs & Ha3 & Hst & Hv).
      { rewrite Ec, Ds, G. exact Hc. }
      rewrite Ec in *. cbn [fst snd] in *. exists d3. split; [reflexivity|]. rewrite Ds, G in *. auto.
    - destruct (Sm Hfin) as (-> & _ & _). exists d1. auto.
    - destruct (Sm Hfin) as (-> & _ & _). exists d1. auto.
  Qed.

  Lemma contract_state_same {K V} `{Countable K} (s : schema K V) (Hs : good_schema s) db T n addr (m : gmap K V) : shows db T n ->
    T !! addr = Some (sbytes (root (enc_map s m))) -> fair_map (enc_map s m) -> whole digest db (enc_map s m) ->
    map_Forall (fun _ v => fits (sc_eval s v)) m ->
    exists a, d_contract_state db n addr = Ok a /\ Rad digest s db (ad_new m) a.
  Proof.
    intros (t & Hsh & Hr & _) E Hf Hw Hm. unfold d_contract_state. rewrite (get_rep digest db n t T addr Hsh Hr), E, hash_from_bytes_ok. cbn [map_err rbind].
    rewrite (whole_from digest db _ Hf Hw). cbn [ok_or rbind]. eexists. split; [reflexivity|]. apply rad_new; [exact Hs| |exact Hm].
    exists (tree_of (enc_map s m)). split; [apply whole_shape; assumption|]. split; [apply fair_tree; assumption|exact Hf].
  Qed.
  Lemma from_root_same chain db e p cb T A B tdb : dholds db T A B -> no_collision digest (parts ∅ ++ parts T) ->
    exists d, d_from_root digest chain (root T) db e p cb = Ok d /\ dx_log d = [] /\ dx_db d = db /\ R (MkExec chain e p cb T (ad_new A) (ad_new B) tdb) d.
  Proof.
    intros [[FT WT] [FA WA] [FB WB] IA IB TA TB] Hc. unfold d_from_root.
    destruct (decide (root T = hash_from_empty digest)) as [E|E].
    - exfalso. rewrite <- C104_empty_root in E. symmetry in E. apply (root_inj digest) in E; [|apply fair_empty|exact FT|exact Hc].
      rewrite <- E, lookup_empty in TA. discriminate.
    - rewrite (whole_from digest db T FT WT). cbn [ok_or rbind].
      assert (shows db T (shallow digest (tree_of T))) as HT.
      { exists (tree_of T). split; [apply whole_shape; assumption|]. split; [apply fair_tree; assumption|exact FT]. }
      destruct (contract_state_same account_schema good_account_schema db T _ _ A HT TA FA WA IA) as (a & -> & Ra). cbn [rbind].
      destruct (contract_state_same asset_schema good_asset_schema db T _ _ B HT TB FB WB IB) as (b & -> & Rb). cbn [rbind].
      eexists. split; [reflexivity|]. split; [reflexivity|]. split; [reflexivity|]. constructor; fields; try reflexivity; assumption.
  Qed.
  Lemma shows_empty db : shows db ∅ tr_new.
  Proof. exists Empty. split; [exact I|]. split; [apply rep_empty|apply fair_empty]. Qed.
  Lemma from_empty_same chain db e p cb tdb :
    from_root digest chain (hash_from_empty digest) tdb e p cb = Ok (MkExec chain e p cb ∅ (ad_new ∅) (ad_new ∅) tdb) /\
    exists d, d_from_root digest chain (hash_from_empty digest) db e p cb = Ok d /\ dx_log d = [] /\ dx_db d = db /\
      R (MkExec chain e p cb ∅ (ad_new ∅) (ad_new ∅) tdb) d.
  Proof.
    unfold d_from_root, from_root. rewrite !decide_True by reflexivity. cbn [rbind].
    unfold d_contract_state. rewrite !(get_rep digest db tr_new Empty ∅) by (first [exact I|apply rep_empty]). rewrite !lookup_empty.
    cbn [rbind]. unfold gen_contract_state. rewrite !lookup_empty. cbn [rbind]. unfold dec_map. rewrite map_to_list_empty. cbn [dec_entries rmap map_err rbind].
    split; [reflexivity|]. eexists. split; [reflexivity|]. split; [reflexivity|]. split; [reflexivity|].
    constructor; fields; try reflexivity; [apply shows_empty| |].
    - exists ∅. split; [apply shows_empty|]. split; [|split; apply fair_empty]. split; [apply image_empty|]. split; apply image_empty.
    - exists ∅. split; [apply shows_empty|]. split; [|split; apply fair_empty]. split; [apply image_empty|]. split; apply image_empty.
  Qed.
End Run.
