(** * A concrete history meeting the hypotheses of the consensus theorems, with
    the digest [mixd]: boot, insert, propose, check, commit, the same
    transaction again in the middle of the commit, propose, commit; crash and
    restart. *)
From Verif Require Import Base BaseFacts Hex Types Rlp RlpFacts FixedCodec StateAdapter Executor ExecSpec Mempool Merkle Bincode ConsMsg PropConsMsg
  Proto Wire Storage StorageSpec StorageExamples Consensus ConsSpec ConsFacts ConsInv Keccak MixSetup.
From Coq Require Strings.String.
Import String.StringSyntax.
Delimit Scope string_scope with string.
Local Open Scope N_scope.

Definition cfx : config :=
  MkConfig chainx carol (wrap64 1) (wrap64 10000) (wrap64 3000) [bob; alice] 10%nat (wrap64 100) gen0.
Definition verifyx (a b c : bytes) : bool := true.
Notation runx := (run_call mixd rootx showx verifyx comb_shapes cfx).
Notation historyx := (history mixd rootx showx verifyx comb_shapes cfx).
Notation seenx := (epochs_seen mixd rootx showx verifyx comb_shapes cfx (Down (∅, ∅))).

(** alice sends 10 to bob *)
Definition raw1 : raw_tx := MkRaw chainx (mixd [x01]) (wrap64 20) (MkFee stok (wrap64 1000)) (Transfer bob (MkCarrying stok 10)).
Definition tx1 : signed_tx := MkSigned raw1 (mixd (enc_raw raw1)) [x01] [x05].

Definition pill_of (r : res cn_err reply * node * list durable) : pill :=
  match r with (Ok (RepPill p _), _, _) => p | _ => MkPill (genesis_epoch mixd cfx (mixd [])) [] end.
Definition propose_at (l : list event) (id now : N) : pill :=
  match historyx l with Up n => pill_of (runx (CallPropose (wrap64 id) (wrap64 now)) n) | _ => MkPill (genesis_epoch mixd cfx (mixd [])) [] end.
Definition commit_of (id : N) (p : pill) : commit_msg :=
  MkCommit p (wrap64 id) (wrap64 0) (sbytes (mixd (enc_pill p))) [x01] [x02].

Definition l1 : list event := [EvBoot canon_order canon_order; EvCall (CallInsert true tx1 (Ok tt))].
Definition p1 : pill := Eval vm_compute in propose_at l1 1 50.
Definition l2 : list event := l1 ++ [EvCall (CallPropose (wrap64 1) (wrap64 50)); EvCall (CallCheck (mixd (enc_pill p1)) p1 (Ok []) (Ok []));
  EvCall (CallCommit (wrap64 1) (commit_of 1 p1))].
Definition rest : call := CallCommitRest canons (Ok tt).
Definition l3 : list event := l2 ++ [EvCall (CallInsert true tx1 (Ok tt)); EvCall rest].
Definition p2 : pill := Eval vm_compute in propose_at l3 2 60.
Definition l4 : list event := l3 ++ [EvCall (CallPropose (wrap64 2) (wrap64 60)); EvCall (CallCommit (wrap64 2) (commit_of 2 p2)); EvCall rest].
Definition lc : list event := l2 ++ [EvCrash rest 6; EvBoot canon_order canon_order].

(** ** The side conditions of the theorems *)
Definition ids (l : list hash) : list bytes := map sbytes l.
Fixpoint bl_eqb (l k : list bytes) : bool :=
  match l, k with [], [] => true | x :: l', y :: k' => bytes_eqb x y && bl_eqb l' k' | _, _ => false end.
Lemma bl_eqb_eq l k : bl_eqb l k = true -> l = k.
Proof.
  revert k. induction l as [|x l IH]; intros [|y k]; try discriminate; [reflexivity|].
  cbn [bl_eqb]. intros H. apply andb_true_iff in H as [H1 H2]. apply bytes_eqb_eq in H1. f_equal; auto.
Qed.
Lemma hashes_eqb_eq (l k : list hash) : bl_eqb (ids l) (ids k) = true -> l = k.
Proof.
  intros H. apply bl_eqb_eq in H. revert k H. induction l as [|x l IH]; intros [|y k]; try discriminate; [reflexivity|].
  cbn [ids map]. intros H. injection H as H1 H2. apply sized_eq in H1. f_equal; [exact H1|apply IH, H2].
Qed.
Definition heqb (a b : hash) : bool := bytes_eqb (sbytes a) (sbytes b).
Lemma heqb_eq a b : heqb a b = true -> a = b.
Proof. intros H. apply sized_eq, bytes_eqb_eq, H. Qed.
Lemma ueqb_eq (a b : u64) : u64v a =? u64v b = true -> a = b.
Proof. intros H. apply u64_eq, N.eqb_eq, H. Qed.

Definition links_b (n : node) (e : epoch) : bool := heqb (eh_pre_hash (ep_header e)) (cs_prev_hash (nd_status n)).
Definition extends_b (n : node) (e : epoch) : bool :=
  (u64v (eh_epoch_id (ep_header e)) =? u64v (cs_epoch_id (nd_status n))) && negb (u64v (cs_epoch_id (nd_status n)) =? 0).
(** All of [replies_match], [ids_agree], [one_more], [commits_only], for
    events without synchronisation. *)
Definition good_b (m : machine) (e : event) : bool :=
  match event_call e with
  | Some (CallSync _ _) | Some (CallSyncEpoch _ _ _) => false
  | Some (CallCommit id c) =>
      let ep := pl_epoch (cm_pill c) in
      (u64v id =? u64v (eh_epoch_id (ep_header ep))) && (u64v (cm_proof_epoch_id c) =? u64v id) &&
      match m with
      | Up n => (u64v id =? u64v (cs_epoch_id (nd_status n))) && extends_b n ep && links_b n ep
      | Down _ => true
      end
  | _ => true
  end.
Lemma extends_b_ok n e : extends_b n e = true -> extends n e.
Proof.
  intros H. apply andb_true_iff in H as [H1 H2]. split; [apply ueqb_eq, H1|]. intros X. rewrite X in H2. discriminate H2.
Qed.
Lemma good_b_ok m e : good_b m e = true ->
  replies_match m e /\ ids_agree m e /\ one_more m e /\ commits_only m e.
Proof.
  unfold good_b, replies_match, ids_agree, one_more, commits_only. destruct (event_call e) as [c|]; [|destruct m; auto].
  destruct c as [| | |id c| | |]; try discriminate; try (destruct m; auto; fail).
  intros H. apply andb_true_iff in H as [H1 H2]. apply andb_true_iff in H1 as [H0 H1]. apply ueqb_eq in H0, H1.
  split; [exact I|]. split; [exact H0|]. split; [|exact H1]. destruct m as [d|n]; [exact I|].
  apply andb_true_iff in H2 as [H2 H3]. apply andb_true_iff in H2 as [H2 H4]. apply ueqb_eq in H2.
  split; [exact H2|]. split; [apply extends_b_ok, H4|apply heqb_eq, H3].
Qed.
Fixpoint along_b (m : machine) (l : list event) : bool :=
  match l with [] => true | e :: r => good_b m e && along_b (happens mixd rootx showx verifyx comb_shapes cfx m e) r end.
Notation alwaysx C := (along mixd rootx showx verifyx comb_shapes cfx C (Down (∅, ∅))).
Lemma along_b_ok l : along_b (Down (∅, ∅)) l = true ->
  alwaysx replies_match l /\ alwaysx ids_agree l /\ alwaysx one_more l /\ alwaysx commits_only l.
Proof.
  generalize (Down (∅, ∅)). induction l as [|e l IH]; intros m; cbn [along_b along]; [auto|].
  intros H. apply andb_true_iff in H as [H1 H2]. apply good_b_ok in H1 as (A & B & C & D). apply IH in H2 as (A' & B' & C' & D'). auto 10.
Qed.
Definition nocoll_b (l : list bytes) : bool :=
  let k := map (fun b => (sbytes (mixd b), b)) l in
  forallb (fun p => forallb (fun q => if bytes_eqb p.1 q.1 then bytes_eqb p.2 q.2 else true) k) k.
Lemma nocoll_b_ok l : nocoll_b l = true -> no_collision mixd l.
Proof.
  unfold nocoll_b. cbn zeta. rewrite forallb_forall. intros H a b Ha Hb E.
  specialize (H (sbytes (mixd a), a)). rewrite forallb_forall in H.
  specialize (H ltac:(apply (in_map (fun b => (sbytes (mixd b), b))), elem_of_list_In, Ha) (sbytes (mixd b), b)
                ltac:(apply (in_map (fun b => (sbytes (mixd b), b))), elem_of_list_In, Hb)). cbn [fst snd] in H. rewrite E in H.
  destruct (bytes_eqb (sbytes (mixd b)) (sbytes (mixd b))) eqn:Eb; [apply bytes_eqb_eq, H|].
  exfalso. assert (bytes_eqb (sbytes (mixd b)) (sbytes (mixd b)) = true) as X by (apply bytes_eqb_eq; reflexivity). congruence.
Qed.
Definition seen_b (l : list event) : bool :=
  let es := seenx l in
  forallb (fun e => blen (wenc_epoch e) <? two64) es &&
  nocoll_b (ascii "latest_hash"%string :: ascii "latest_proof"%string :: map (fun e => wenc_header (ep_header e)) es).
Lemma seen_b_ok l : seen_b l = true -> epochs_ok mixd rootx showx verifyx comb_shapes cfx l.
Proof.
  unfold seen_b, epochs_ok. intros H. apply andb_true_iff in H as [H1 H2]. split.
  - rewrite forallb_forall in H1. apply Forall_forall. intros e He. apply elem_of_list_In in He. unfold fits. apply N.ltb_lt, H1, He.
  - apply nocoll_b_ok, H2.
Qed.
Definition fits_b (d : durable) : bool := forallb (fun kv => blen kv.2 <? two64) (map_to_list d.1).
Lemma fits_b_ok d : fits_b d = true -> db_fits d.1.
Proof.
  unfold fits_b, db_fits. rewrite forallb_forall. intros H k v Hk. apply elem_of_map_to_list in Hk. unfold fits. apply N.ltb_lt.
  apply (H (k, v)), elem_of_list_In, Hk.
Qed.

Lemma story_good : along_b (Down (∅, ∅)) l4 && along_b (Down (∅, ∅)) lc && seen_b l4 && seen_b lc = true.
Proof. vm_compute. reflexivity. Qed.
Example story_hypotheses : 
  epochs_ok mixd rootx showx verifyx comb_shapes cfx l4 /\ epochs_ok mixd rootx showx verifyx comb_shapes cfx lc /\
  (alwaysx replies_match l4 /\ alwaysx ids_agree l4 /\ alwaysx one_more l4 /\ alwaysx commits_only l4) /\
  (alwaysx replies_match lc /\ alwaysx ids_agree lc /\ alwaysx one_more lc /\ alwaysx commits_only lc).
Proof.
  pose proof story_good as H. apply andb_true_iff in H as [H H4]. apply andb_true_iff in H as [H H3]. apply andb_true_iff in H as [H1 H2].
  split; [apply seen_b_ok, H3|]. split; [apply seen_b_ok, H4|]. split; apply along_b_ok; assumption.
Qed.

(** ** What happens in it *)
Definition bal_at (n : node) (a : user_address) : N :=
  match Executor.from_root mixd chainx (cs_state_root (nd_status n)) (nd_disk n).2 (wrap64 0) (wrap64 1) (AUser carol) with
  | Ok x => bal (committed x) (AUser a) stok
  | _ => 0
  end.
Definition view (n : node) : list N :=
  [u64v (cs_epoch_id (nd_status n)); bal_at n alice; bal_at n bob; N.of_nat (length (nd_out n));
   match nd_busy n with Idle => 0 | Committing _ _ _ txs => 10 + N.of_nat (length txs) | Syncing next _ _ _ => 100 + next end;
   match get_latest_epoch rocks_col mixd (nd_disk n).1 with Ok e => u64v (eh_epoch_id (ep_header e)) | _ => 99 end;
   match get_latest_proof rocks_col mixd (nd_disk n).1 with Ok p => u64v (pf_epoch_id p) | _ => 99 end].
Definition view_m (m : machine) : option (list N) := match m with Up n => Some (view n) | Down _ => None end.

(** After boot; after the first half of the commit; after all; the latest epoch
    of each.  alice's transaction is executed twice: 1000, 990, 980. *)
Example story_runs :
  view_m (historyx l1) = Some [1; 1000; 3; 1; 0; 0; 0] /\
  view_m (historyx l2) = Some [1; 1000; 3; 1; 11; 0; 1] /\
  view_m (historyx l3) = Some [2; 990; 13; 3; 0; 1; 1] /\
  view_m (historyx l4) = Some [3; 980; 23; 5; 0; 2; 2].
Proof. vm_compute. repeat split; reflexivity. Qed.
Example story_same_transaction_twice :
  ep_ordered_tx_hashes (pl_epoch p1) = [st_tx_hash tx1] /\ ep_ordered_tx_hashes (pl_epoch p2) = [st_tx_hash tx1].
Proof. split; apply hashes_eqb_eq; vm_compute; reflexivity. Qed.
(** Crash when all is stored, restart: the number and link of after the
    commit, the balances of before. *)
Example restart_runs : view_m (historyx lc) = Some [2; 1000; 3; 1; 0; 1; 1].
Proof. vm_compute. reflexivity. Qed.

(** ** Synchronising *)
Definition boot : list event := [EvBoot canon_order canon_order].
Definition announce (i : N) : event := EvCall (CallSync (enc_fixed_epoch_id (wrap64 i)) (Ok (RpEpoch (pl_epoch p2)))).
Definition ls : list event := boot ++ [announce 5].
(** An epoch 7 that links to nothing and orders a transaction. *)
Definition rogue : epoch :=
  MkEpoch (MkHeader (mixd [x01]) (wrap64 7) (mixd [x02]) (wrap64 9) zero_bloom (mixd [x03]) [] (mixd [x04]) [] (wrap64 0) bob
     (MkProof (wrap64 6) (wrap64 0) (mixd [x05]) [] []) (wrap64 0) []) [st_tx_hash tx1].
Definition pull (e : epoch) (txs : list signed_tx) : event := EvCall (CallSyncEpoch canons (Ok (RpEpoch e)) (Ok (RpTxs txs))).

(** The hypotheses of C61_sync_*, C63_*, C69_new_node_*: a new node that was
    told of epoch 5 wants epoch 1, holds the empty state; the rogue epoch's
    transaction is unknown. *)
Definition sync_ready (m : machine) : bool :=
  match m with
  | Up n => match nd_busy n with
            | Syncing next rich ch sr => (next =? 1) && (u64v rich =? 4) && heqb sr (hash_from_empty mixd) &&
                is_ok (Executor.from_root mixd chainx sr (nd_disk n).2 (wrap64 7) (cs_price (nd_status n)) (AUser bob)) &&
                match get_transaction_by_hash rocks_col (nd_disk n).1 (st_tx_hash tx1) with Err GetNone => true | _ => false end
            | _ => false
            end
  | Down _ => false
  end.
Example sync_hypotheses : sync_ready (historyx ls) = true /\ seen_b (ls ++ [pull rogue []]) = true /\ fits (wenc_epoch rogue).
Proof. vm_compute. repeat split; reflexivity. Qed.
(** The rogue epoch becomes the latest; with its transaction it would not. *)
Example sync_runs :
  view_m (historyx (ls ++ [pull rogue []])) = Some [8; 0; 0; 1; 102; 7; 6] /\
  view_m (historyx (ls ++ [pull rogue [tx1]])) = Some [1; 1000; 3; 1; 0; 0; 6].
Proof. vm_compute. repeat split; reflexivity. Qed.

(** C69_low_announcement: a node that committed epoch 1 is told of epoch 1. *)
Definition lowly : list event := l3 ++ [announce 1; EvCall (CallSyncEpoch canons (Err (CNetwork 0)) (Err (CNetwork 0)))].
Definition last_out (m : machine) : option N :=
  match m with Up n => match last (nd_out n) with Some (RichStatus i _ _) => Some (u64v i) | _ => None end | _ => None end.
Example low_announcement_runs : last_out (historyx l3) = Some 2 /\ last_out (historyx lowly) = Some 1.
Proof. vm_compute. split; reflexivity. Qed.
