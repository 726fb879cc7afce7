(** * C16: the result of a block does not depend on hash-map iteration orders. *)
From Verif Require Import Base BaseFacts Hex Types Rlp RlpFacts FixedCodec FixedCodecFacts CodecProps
  StateAdapter StateAdapterFacts Executor ExecSpec ExecutorFacts.
From Coq Require Import Permutation.
Local Open Scope N_scope.

Lemma stash_all_canon o x : order_ok o -> stash_all o x = stash_all canon_order x.
Proof.
  intros [H1 H2]. unfold stash_all, canon_order. cbn [io_bank_first io_acc io_bank].
  destruct (io_bank_first o); unfold ad_stash_op, set_acc, set_bank;
    cbn [x_chain_id x_epoch_id x_price x_coinbase x_trie x_acc x_bank x_db ad_trie ad_stash ad_cache];
    rewrite !(insert_all_perm _ (ad_cache (x_acc x)) _ (H1 _)), !(insert_all_perm _ (ad_cache (x_bank x)) _ (H2 _));
    rewrite !(insert_all_perm (map_to_list _) (ad_cache (x_acc x)) _ (reflexivity _)),
            !(insert_all_perm (map_to_list _) (ad_cache (x_bank x)) _ (reflexivity _));
    reflexivity.
Qed.

Lemma revert_all_canon o x : revert_all o x = revert_all canon_order x.
Proof. unfold revert_all, canon_order. cbn. destruct (io_bank_first o); reflexivity. Qed.

Section Order.
  Context (digest : bytes -> hash) (root_of : gmap bytes bytes -> hash) (show : exec_err -> rstring).

  Lemma exec_tx_canon o x t : order_ok o -> exec_tx digest show o x t = exec_tx digest show canon_order x t.
  Proof.
    intros Ho. unfold exec_tx. destruct (gen_invoke_ctx digest x t) as [c|e|]; cbn [rbind]; try reflexivity.
    destruct (dispatch digest t (x, c)) as [[r|e|] [x' c']].
    - rewrite (stash_all_canon o x' Ho). reflexivity.
    - rewrite (revert_all_canon o x'). reflexivity.
    - reflexivity.
  Qed.

  Lemma exec_txs_canon os x ts : (forall n, order_ok (os n)) ->
    exec_txs digest show os x ts = exec_txs digest show (fun _ => canon_order) x ts.
  Proof.
    revert os x. induction ts as [|t ts IH]; intros os x Hos; cbn [exec_txs]; [reflexivity|].
    rewrite (exec_tx_canon _ x t (Hos O)).
    destruct (exec_tx digest show canon_order x t) as [[r x1]|e|]; cbn [rbind]; try reflexivity.
    rewrite IH by auto. reflexivity.
  Qed.

  Lemma commit_acc_eq o x : order_ok o ->
    commit_acc root_of o x =
    let A := ad_stash (x_acc x) ∪ ad_trie (x_acc x) in
    MkExec (x_chain_id x) (x_epoch_id x) (x_price x) (x_coinbase x)
      (<[ACCOUNT_CONTRACT_ADDRESS := sbytes (root_of (enc_map account_schema A))]> (x_trie x))
      (MkAdapter A (ad_cache (x_acc x)) ∅) (x_bank x)
      (<[root_of (enc_map account_schema A) := enc_map account_schema A]> (x_db x)).
  Proof.
    intros [H1 H2]. unfold commit_acc, ad_commit_op. rewrite (insert_all_perm _ _ _ (H1 _)). reflexivity.
  Qed.
  Lemma commit_bank_eq o x : order_ok o ->
    commit_bank root_of o x =
    let B := ad_stash (x_bank x) ∪ ad_trie (x_bank x) in
    MkExec (x_chain_id x) (x_epoch_id x) (x_price x) (x_coinbase x)
      (<[BANK_CONTRACT_ADDRESS := sbytes (root_of (enc_map asset_schema B))]> (x_trie x))
      (x_acc x) (MkAdapter B (ad_cache (x_bank x)) ∅)
      (<[root_of (enc_map asset_schema B) := enc_map asset_schema B]> (x_db x)).
  Proof.
    intros [H1 H2]. unfold commit_bank, ad_commit_op. rewrite (insert_all_perm _ _ _ (H2 _)). reflexivity.
  Qed.

  (** The database after a commit. *)
  Definition db_of (first : bool) (A B T : gmap bytes bytes) (d : trie_db) : trie_db :=
    <[root_of T := T]> (if first then <[root_of A := A]> (<[root_of B := B]> d)
                        else <[root_of B := B]> (<[root_of A := A]> d)).

  Lemma commit_eq o x : order_ok o ->
    let A := ad_stash (x_acc x) ∪ ad_trie (x_acc x) in
    let B := ad_stash (x_bank x) ∪ ad_trie (x_bank x) in
    let T := top_after root_of x A B in
    commit root_of o x =
    (root_of T,
     MkExec (x_chain_id x) (x_epoch_id x) (x_price x) (x_coinbase x) T
       (MkAdapter A (ad_cache (x_acc x)) ∅) (MkAdapter B (ad_cache (x_bank x)) ∅)
       (db_of (io_bank_first o) (enc_map account_schema A) (enc_map asset_schema B) T (x_db x))).
  Proof.
    intros Ho A B T. unfold commit.
    destruct (io_bank_first o).
    - rewrite commit_acc_eq, commit_bank_eq by exact Ho. reflexivity.
    - rewrite commit_bank_eq, commit_acc_eq by exact Ho.
      cbn [x_chain_id x_epoch_id x_price x_coinbase x_trie x_acc x_bank x_db]. cbn zeta. fold A B.
      assert (E : <[BANK_CONTRACT_ADDRESS:=sbytes (root_of (enc_map asset_schema B))]>
           (<[ACCOUNT_CONTRACT_ADDRESS:=sbytes (root_of (enc_map account_schema A))]> (x_trie x)) = T)
        by (unfold T, top_after; apply insert_commute; discriminate).
      rewrite E. reflexivity.
  Qed.

  Lemma commit_canon o x : order_ok o ->
    let y := (commit root_of o x).2 in
    (commit root_of o x).1 = (commit root_of canon_order x).1 /\
    same_but_db y (commit root_of canon_order x).2 /\
    (clash_free root_of (tries_of y) -> y = (commit root_of canon_order x).2).
  Proof.
    intros Ho. cbn zeta. rewrite (commit_eq o x Ho), (commit_eq canon_order x) by (split; reflexivity).
    set (A := ad_stash (x_acc x) ∪ ad_trie (x_acc x)). set (B := ad_stash (x_bank x) ∪ ad_trie (x_bank x)).
    cbn zeta. set (T := top_after root_of x A B). cbn [fst snd].
    split; [reflexivity|]. split.
    { unfold same_but_db. cbn [x_chain_id x_epoch_id x_price x_coinbase x_trie x_acc x_bank]. auto 10. }
    unfold db_of, canon_order; cbn [io_bank_first]. destruct (io_bank_first o); [|reflexivity].
    unfold tries_of, committed, committed_assets. cbn [x_trie x_acc x_bank ad_trie].
    set (eA := enc_map account_schema A). set (eB := enc_map asset_schema B). intros Hc.
    assert (E : <[root_of eA := eA]> (<[root_of eB := eB]> (x_db x)) = <[root_of eB := eB]> (<[root_of eA := eA]> (x_db x))).
    { destruct (decide (root_of eA = root_of eB)) as [E|E].
      - rewrite (Hc eA eB); [reflexivity|right; left|right; right; left|exact E].
      - apply insert_commute, E. }
    rewrite E. reflexivity.
  Qed.

  Lemma exec_canon os x ts : (forall n, order_ok (os n)) ->
    match exec digest root_of show os x ts, exec digest root_of show (fun _ => canon_order) x ts with
    | Ok (resp, y), Ok (resp', y') => resp = resp' /\ same_but_db y y' /\ (clash_free root_of (tries_of y) -> y = y')
    | Err e, Err e' => e = e'
    | Panic, Panic => True
    | _, _ => False
    end.
  Proof.
    intros Hos. unfold exec. rewrite (exec_txs_canon (fun n => os (S n)) x ts) by auto.
    destruct (exec_txs digest show (fun _ => canon_order) x ts) as [[rs x1]|e|]; cbn [rbind]; auto.
    pose proof (commit_canon (os O) (pay_coinbase digest x1 (all_cycles_used rs)) (Hos O)) as (H1 & H2 & H3).
    destruct (commit root_of (os O) _) as [r1 y1], (commit root_of canon_order _) as [r2 y2].
    cbn [fst snd] in *. subst r2. auto.
  Qed.

  Lemma tries_same x y : same_but_db x y -> tries_of x = tries_of y.
  Proof. intros (_ & _ & _ & _ & E1 & E2 & E3). unfold tries_of, committed, committed_assets. congruence. Qed.

  Lemma same_but_db_sym x y : same_but_db x y -> same_but_db y x.
  Proof. unfold same_but_db. intuition congruence. Qed.
  Lemma same_but_db_trans x y z : same_but_db x y -> same_but_db y z -> same_but_db x z.
  Proof. unfold same_but_db. intuition congruence. Qed.

  Lemma exec_orders os os' x ts : (forall n, order_ok (os n)) -> (forall n, order_ok (os' n)) ->
    match exec digest root_of show os x ts, exec digest root_of show os' x ts with
    | Ok (resp, y), Ok (resp', y') => resp = resp' /\ same_but_db y y' /\ (clash_free root_of (tries_of y) -> y = y')
    | Err e, Err e' => e = e'
    | Panic, Panic => True
    | _, _ => False
    end.
  Proof.
    intros H H'. pose proof (exec_canon os x ts H) as E. pose proof (exec_canon os' x ts H') as E'.
    destruct (exec digest root_of show (fun _ => canon_order) x ts) as [[? ?]|?|];
      destruct (exec digest root_of show os x ts) as [[? ?]|?|]; try contradiction;
      destruct (exec digest root_of show os' x ts) as [[? ?]|?|]; try contradiction; auto; [|congruence].
    destruct E as (-> & S1 & C1), E' as (-> & S2 & C2). split; [reflexivity|]. split.
    - eapply same_but_db_trans; [exact S1|]. apply same_but_db_sym, S2.
    - intros Hc. rewrite (C1 Hc). symmetry. apply C2.
      rewrite (tries_same _ _ S2), <- (tries_same _ _ S1). exact Hc.
  Qed.

  Lemma genesis_orders o1 o2 o1' o2' x g :
    order_ok o1 -> order_ok o2 -> order_ok o1' -> order_ok o2' ->
    match create_genesis digest root_of o1 o2 x g, create_genesis digest root_of o1' o2' x g with
    | Ok (r, y), Ok (r', y') => r = r' /\ same_but_db y y' /\ (clash_free root_of (tries_of y) -> y = y')
    | Err e, Err e' => e = e'
    | Panic, Panic => True
    | _, _ => False
    end.
  Proof.
    intros H1 H2 H1' H2'. unfold create_genesis.
    destruct (genesis_body digest g (x, genesis_ctx digest x)) as [[u|e|] [x1 c1]]; auto.
    rewrite (stash_all_canon o1 x1 H1), (stash_all_canon o1' x1 H1').
    pose proof (commit_canon o2 (stash_all canon_order x1) H2) as (A1 & A2 & A3).
    pose proof (commit_canon o2' (stash_all canon_order x1) H2') as (B1 & B2 & B3).
    destruct (commit root_of o2 _) as [r y], (commit root_of o2' _) as [r' y'], (commit root_of canon_order _) as [r'' y''].
    cbn [fst snd] in *. subst. split; [reflexivity|]. split.
    - eapply same_but_db_trans; [exact A2|]. apply same_but_db_sym, B2.
    - intros Hc. rewrite (A3 Hc). symmetry. apply B3.
      rewrite (tries_same _ _ B2), <- (tries_same _ _ A2). exact Hc.
  Qed.
End Order.
