(** * C105: a history that meets the hypotheses, with the digest [mixd] *)
From Verif Require Import Base BaseFacts Hex Types Keccak Rlp FixedCodec StateAdapter StateAdapterFacts Executor ExecSpec MixSetup Mpt StorageSpec TrieSpec DbExec DbSpec PropDb.
Local Open Scope N_scope.

(** A block: two payments, a deployment, a payment out of cycles. *)
Definition mktx (pubkey : bytes) (limit : N) (a : tx_action) : signed_tx :=
  MkSigned (MkRaw chainx (mixd pubkey) (wrap64 20) (MkFee tok (wrap64 limit)) a) (mixd (x00 :: pubkey)) pubkey [x05].
Definition deploy : signed_tx := mktx [x01] 5000 (Deploy [x60; x61] CtAsset).
Definition spay (limit n : N) : signed_tx := mktx [x01] limit (Transfer bob (MkCarrying stok n)).
Definition block1 : list signed_tx := [spay 1000 10; spay 1000 5; deploy; spay 100 20].

(** Checks *)
Definition same_hash (a b : hash) : bool := bytes_eqb (sbytes a) (sbytes b).
Lemma same_hash_neq a b : same_hash a b = false -> a <> b.
Proof. intros H ->. unfold same_hash in H. assert (bytes_eqb (sbytes b) (sbytes b) = true) as X by (apply bytes_eqb_eq; reflexivity). congruence. Qed.
Definition nocoll_b (l : list bytes) : bool :=
  let k := map (fun b => (sbytes (mixd b), b)) l in
  forallb (fun p => forallb (fun q => if bytes_eqb p.1 q.1 then bytes_eqb p.2 q.2 else true) k) k.
Lemma nocoll_b_ok l : nocoll_b l = true -> no_collision mixd l.
Proof.
  unfold nocoll_b. cbn zeta. rewrite forallb_forall. intros H a b Ha Hb E.
  specialize (H (sbytes (mixd a), a)). rewrite forallb_forall in H.
  specialize (H ltac:(apply (in_map (fun b => (sbytes (mixd b), b))), elem_of_list_In, Ha) (sbytes (mixd b), b)
                ltac:(apply (in_map (fun b => (sbytes (mixd b), b))), elem_of_list_In, Hb)). cbn [fst snd] in H. rewrite E in H.
  destruct (bytes_eqb (sbytes (mixd b)) (sbytes (mixd b))) eqn:Eb; [apply bytes_eqb_eq, H|].
  exfalso. assert (bytes_eqb (sbytes (mixd b)) (sbytes (mixd b)) = true) as X by (apply bytes_eqb_eq; reflexivity). congruence.
Qed.
Definition root_b (s : mstate) (r : hash) : bool :=
  same_hash r (hash_from_empty mixd) || existsb (same_hash r) (ms_known s)
  || forallb (fun b => negb (same_hash (mixd b) r)) (flat_map (parts mixd) (ms_tries s)).
Lemma same_hash_eq a b : same_hash a b = true -> a = b.
Proof. intros H. apply sized_eq. apply bytes_eqb_eq, H. Qed.
Lemma root_b_ok s r : root_b s r = true -> root_ok mixd s r.
Proof.
  unfold root_b. intros H. apply orb_true_iff in H as [H|H]; [apply orb_true_iff in H as [H|H]|].
  - left. apply same_hash_eq, H.
  - right; left. apply existsb_exists in H as (k & Hk & E). apply same_hash_eq in E as ->. apply elem_of_list_In, Hk.
  - right; right. intros m b Hm Hb. rewrite forallb_forall in H. apply same_hash_neq, negb_true_iff, H.
    apply in_flat_map. exists m. split; apply elem_of_list_In; assumption.
Qed.
Definition op_b (s : mstate) (o : db_op) : bool :=
  match o with OpGenesis _ _ | OpGCrash _ _ _ => true | OpBlock r _ _ | OpBalance r _ _ _ | OpCrash r _ _ _ => root_b s r end.
Lemma op_b_ok s o : op_b s o = true -> op_ok mixd s o.
Proof. destruct o; cbn [op_b op_ok]; try apply root_b_ok; intros _; exact I. Qed.
Fixpoint ops_b (s : mstate) (l : list db_op) : bool :=
  match l with [] => true | o :: l => op_b s o && ops_b (m_step mixd showx s o).2 l end.
Lemma ops_b_ok l : forall s, ops_b s l = true -> ops_ok mixd showx s l.
Proof.
  induction l as [|o l IH]; intros s H; [exact I|]. cbn [ops_b] in H. apply andb_true_iff in H as [H1 H2].
  split; [apply op_b_ok, H1|apply IH, H2].
Qed.
Definition sizes_b (s : dstate) : bool := forallb (fun v => N.of_nat (length v) <? 4294967296) (ds_log s).
Lemma sizes_b_ok s : sizes_b s = true -> sizes_ok s.
Proof. unfold sizes_b. intros H v Hv. rewrite forallb_forall in H. apply N.ltb_lt, H, elem_of_list_In, Hv. Qed.

(** The history: a genesis that dies after one of its batches; genesis; a block that dies after two of its three batches;
    the same block again, done; balances before and after it, and at a root
    nobody has heard of; a block on top that dies after its last batch; another
    one instead. *)
Definition pm (e : N) : params := MkParams chainx (wrap64 e) (wrap64 1) (AUser carol).
Definition root0 : hash := match (m_step mixd showx mstate0 (OpGenesis (pm 0) gen0)).1 with OutGenesis (Ok r) => r | _ => chainx end.
Definition root1 : hash :=
  match (m_run mixd showx mstate0 [OpGenesis (pm 0) gen0; OpBlock root0 (pm 1) block1]).1 with [_; OutBlock (Ok r)] => er_state_root r | _ => chainx end.
Definition begin : list db_op := [OpGCrash (pm 0) gen0 1; OpGenesis (pm 0) gen0; OpCrash root0 (pm 1) block1 2].
Definition rest : list db_op :=
  [OpBalance root1 (pm 2) (AUser bob) stok; OpBalance root0 (pm 2) (AUser alice) stok; OpBalance (mixd [x77]) (pm 2) (AUser bob) stok;
   OpCrash root1 (pm 2) [spay 1000 7] 3; OpBlock root1 (pm 2) [spay 1000 3]; OpBalance root1 (pm 3) (AUser bob) stok].
Definition story : list db_op := begin ++ OpBlock root0 (pm 1) block1 :: rest.
Definition orders : nat -> nat -> dorder := fun i j => DOrder (fun m => rev (map_to_list m)) map_to_list (Nat.even (i + j)).
Definition orders' : nat -> nat -> dorder := fun i j => DOrder map_to_list map_to_list true.

Lemma orders_fine : dorders_ok orders.
Proof. intros i j. split; intros m; cbn; [symmetry; apply Permutation_rev|reflexivity]. Qed.
Lemma orders_fine' : dorders_ok orders'.
Proof. intros i j. split; intros m; reflexivity. Qed.
Lemma story_ok_true : ops_b mstate0 story = true.
Proof. vm_compute. reflexivity. Qed.
Definition apart_of (s : mstate) : bool := nocoll_b (flat_map (parts mixd) (∅ :: ms_tries s)).
Lemma apart_of_ok s : apart_of s = true -> nodes_apart mixd s.
Proof. intros H. exact (nocoll_b_ok _ H). Qed.
Lemma story_apart_true : apart_of (m_run mixd showx mstate0 story).2 = true.
Proof. vm_compute. reflexivity. Qed.
Definition sizes_of (q : nat -> nat -> dorder) (l : list db_op) : bool := sizes_b (d_run mixd showx q dstate0 l).2.
Lemma sizes_of_ok q l : sizes_of q l = true -> sizes_ok (d_run mixd showx q dstate0 l).2.
Proof. intros H. exact (sizes_b_ok _ H). Qed.
Lemma sizes1 : sizes_of orders story = true.
Proof. vm_compute. reflexivity. Qed.
Lemma sizes2 : sizes_of orders' story = true.
Proof. vm_compute. reflexivity. Qed.
Lemma sizes3 : sizes_of orders' (List.filter (fun o => negb (is_crash o)) story) = true.
Proof. vm_compute. reflexivity. Qed.

Lemma story_ok : ops_ok mixd showx mstate0 story.
Proof. exact (ops_b_ok story mstate0 story_ok_true). Qed.
Lemma story_apart : nodes_apart mixd (m_run mixd showx mstate0 story).2.
Proof. exact (apart_of_ok _ story_apart_true). Qed.
Lemma story_sizes : sizes_ok (d_run mixd showx orders dstate0 story).2.
Proof. exact (sizes_of_ok _ _ sizes1). Qed.
Lemma story_sizes' : sizes_ok (d_run mixd showx orders' dstate0 story).2.
Proof. exact (sizes_of_ok _ _ sizes2). Qed.
Lemma clean_sizes : sizes_ok (d_run mixd showx orders' dstate0 (List.filter (fun o => negb (is_crash o)) story)).2.
Proof. exact (sizes_of_ok _ _ sizes3). Qed.

(** What comes out: three roots, receipts of which two succeed in the first
    block, two balances and a complaint. *)
Definition good (l : list db_out) : bool :=
  match l with
  | [OutCrash; OutGenesis (Ok g); OutCrash; OutBlock (Ok b1); OutBalance (Ok n1); OutBalance (Ok n2); OutBalance (Err EInvalidStateRoot); OutCrash; OutBlock (Ok b2); OutBalance (Ok n3)] =>
      same_hash g root0 && same_hash (er_state_root b1) root1 && negb (same_hash root0 root1) && negb (same_hash root1 (er_state_root b2))
      && (length (er_receipts b1) =? 4)%nat && (n1 =? 18) && (n3 =? 18) && negb (n2 =? 0)
  | _ => false
  end.
Definition good_b : bool := good (d_run mixd showx orders dstate0 story).1.
Lemma good_true : good_b = true.
Proof. vm_compute. reflexivity. Qed.

(** The database grew: half a commit left its nodes behind. *)
Definition stale_b : bool :=
  let s := (d_run mixd showx orders dstate0 [OpGenesis (pm 0) gen0]).2 in
  let s' := (d_run mixd showx orders dstate0 begin).2 in
  (length (map_to_list (ds_db s)) <? length (map_to_list (ds_db s')))%nat && negb (is_ok (d_open mixd s' root1 (pm 2))).
Lemma stale_true : stale_b = true.
Proof. vm_compute. reflexivity. Qed.

Example C105_maps_example : (d_run mixd showx orders dstate0 story).1 = (m_run mixd showx mstate0 story).1.
Proof. exact (C105_database_is_maps mixd showx orders story orders_fine story_ok story_apart story_sizes). Qed.
Example C105_orders_example : (d_run mixd showx orders dstate0 story).1 = (d_run mixd showx orders' dstate0 story).1.
Proof. exact (C105_orders_irrelevant mixd showx orders orders' story orders_fine orders_fine' story_ok story_apart story_sizes story_sizes'). Qed.
Example C105_crash_example :
  List.filter (fun r => negb (out_crash r)) (d_run mixd showx orders dstate0 story).1 =
    (d_run mixd showx orders' dstate0 (List.filter (fun o => negb (is_crash o)) story)).1.
Proof. exact (C105_crash_leaves_no_trace mixd showx orders orders' story orders_fine orders_fine' story_ok story_apart story_sizes clean_sizes). Qed.

(** The root of the first block hands out a state; it is read at the end. *)
Definition leaf_b (o : option (hash * executor)) : bool :=
  match o with
  | Some (r, x) => same_hash r root1 && match committed x !! AUser bob with Some acc => account_balance acc stok =? 18 | None => false end
  | None => false
  end.
Lemma leaves1_true : leaf_b (leaves mixd showx (m_run mixd showx mstate0 begin).2 (OpBlock root0 (pm 1) block1)) = true.
Proof. vm_compute. reflexivity. Qed.
Example C105_read_example : exists x, leaves mixd showx (m_run mixd showx mstate0 begin).2 (OpBlock root0 (pm 1) block1) = Some (root1, x) /\
  exists d, d_open mixd (d_run mixd showx orders dstate0 story).2 root1 (pm 9) = Ok d /\
    forall a, da_get account_schema (dx_db d) (dx_acc d) a = Ok (committed x !! a).
Proof.
  pose proof leaves1_true as H.
  destruct (leaves mixd showx (m_run mixd showx mstate0 begin).2 (OpBlock root0 (pm 1) block1)) as [[r x]|] eqn:E; [|discriminate H]. cbn [leaf_b] in H.
  apply andb_true_iff in H as [H _]. apply same_hash_eq in H. subst r. exists x. split; [reflexivity|].
  destruct (C105_state_readable mixd showx orders story begin rest (OpBlock root0 (pm 1) block1) root1 x (pm 9) orders_fine story_ok story_apart story_sizes eq_refl E) as (d & H1 & H2 & _).
  exists d. split; assumption.
Qed.
Example C105_balance_example (qs : nat -> dorder) :
  (d_step mixd showx qs (d_run mixd showx orders dstate0 story).2 (OpBalance root1 (pm 9) (AUser bob) stok)).1 = OutBalance (Ok 18).
Proof.
  pose proof leaves1_true as H.
  destruct (leaves mixd showx (m_run mixd showx mstate0 begin).2 (OpBlock root0 (pm 1) block1)) as [[r x]|] eqn:E; [|discriminate H]. cbn [leaf_b] in H.
  apply andb_true_iff in H as [H Hb]. apply same_hash_eq in H. subst r.
  rewrite (C105_old_balance mixd showx orders qs story begin rest (OpBlock root0 (pm 1) block1) root1 x (pm 9) (AUser bob) stok orders_fine story_ok story_apart story_sizes eq_refl E).
  destruct (committed x !! AUser bob) as [acc|]; [|discriminate Hb]. apply N.eqb_eq in Hb. rewrite Hb. reflexivity.
Qed.
