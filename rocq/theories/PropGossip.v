(** * C28: gossip of new transactions from one node's pool to another's. *)
From Verif Require Import Base BaseFacts Hex Types Rlp RlpFacts FixedCodec FixedCodecFacts CodecProps Proto ProtoFacts Wire WireFacts
  Bincode ConsMsg Storage StorageSpec StorageFacts Mempool MempoolSpec MempoolFacts MempoolProps MempoolMore PropConsMsg
  Broadcaster Gossip Keccak MempoolExamples.
From Coq Require Import Permutation.
Local Open Scope N_scope.

(** ** Whatever arrives: pooled transactions stay as they are, nothing is
    broadcast again, and a transaction that is new in the pool came with the
    message and passed the node's own checks. *)
Theorem C28_any_message : forall digest verify gap n gap' ops (E : env -> Prop) msg p',
  let p := pool_after digest verify n gap gap' ops in
  received digest verify gap E p msg p' ->
  mp_out p' = mp_out p /\
  (forall h t, mp_pooled p h = Some t -> mp_pooled p' h = Some t) /\
  (forall h t, mp_pooled p' h = Some t -> mp_pooled p h = None ->
     st_tx_hash t = h /\ (exists l, dec_txs msg = Ok l /\ t ∈ l) /\ mp_proposed p' h = Some false /\
     exists e, E e /\ verify (sbytes h) (st_signature t) (st_pubkey t) = true /\
       digest (enc_raw (st_raw t)) = h /\ en_stored e h = Ok false /\
       exists epoch : u64, en_latest e = Ok (rt_chain_id (st_raw t), epoch) /\
         epoch <= rt_timeout (st_raw t) /\ rt_timeout (st_raw t) <= (epoch + gap) mod two64).
Proof.
  intros digest verify gap n gap' ops E msg p' p H. pose proof (pool_inv digest verify n gap gap' ops) as Hp. fold p in Hp.
  destruct H as [Hb|l tes Hd Hperm HE].
  { split; [reflexivity|]. split; [auto|]. intros h t H1 H2. congruence. }
  destruct (batch_any digest verify gap n gap' p tes Hp) as (I1 & I2 & _ & new & I4 & I5).
  set (q := snd (mp_run digest verify gap p (gossip_ops tes))) in *.
  split; [exact I2|]. split.
  - intros h t H. apply (pooled_entry n gap' p Hp) in H as (b & H1 & H2). apply (pooled_entry n gap' q I1).
    exists b. split; [|exact H2]. rewrite I4. apply elem_of_app. left. exact H1.
  - intros h t H Hn. apply (pooled_entry n gap' q I1) in H as (b & H1 & H2). rewrite I4 in H1. apply elem_of_app in H1 as [H1|H1].
    { exfalso. assert (X : mp_pooled p h = Some t) by (apply (pooled_entry n gap' p Hp); eauto). congruence. }
    destruct (I5 _ _ H1) as (Hb & e & He & Hok). subst b. split; [exact H2|]. split; [|split].
    + exists l. split; [exact Hd|]. rewrite <- Hperm. apply elem_of_list_fmap. exists (t, e). auto.
    + apply (proposed_entry n gap' q I1). exists t. split; [|exact H2]. rewrite I4. apply elem_of_app. right. exact H1.
    + exists e. split; [exact (HE _ _ He)|]. apply tx_ok_iff in Hok as (K1 & K2 & K3 & K4). rewrite H2 in K1, K2, K4. auto.
Qed.
Print Assumptions C28_any_message.

(** ** A batch arrives whole *)
(** The receiver accepts what the sender accepted, as long as it is on the
    same chain, has not stored the transaction and its latest epoch has
    neither passed the timeout nor fallen too far behind. *)
Theorem C28_receiver_agrees : forall digest verify (gap gap2 : u64) (e e2 : env) t chain (epoch2 : u64),
  tx_ok digest verify gap e t -> en_latest e2 = Ok (chain, epoch2) -> chain = rt_chain_id (st_raw t) ->
  en_stored e2 (st_tx_hash t) = Ok false ->
  epoch2 <= rt_timeout (st_raw t) -> rt_timeout (st_raw t) <= epoch2 + gap2 -> epoch2 + gap2 < two64 ->
  tx_ok digest verify gap2 e2 t.
Proof.
  intros digest verify gap gap2 e e2 t chain epoch2 H E1 E2 E3 E4 E5 E6. apply tx_ok_iff in H as (K1 & K2 & _). subst chain.
  apply tx_ok_iff. split; [exact K1|]. split; [exact K2|]. split; [|exact E3].
  exists epoch2. split; [exact E1|]. split; [exact E4|]. rewrite N.mod_small by exact E6. exact E5.
Qed.
Print Assumptions C28_receiver_agrees.

Lemma batch_delivered : forall digest verify gap n gap' p (E : env -> Prop) l rest p',
  mp_inv n gap' p ->
  Forall tx_plain l -> fits (enc_txs l) -> NoDup (map st_tx_hash l) ->
  (forall t, t ∈ l -> mp_contains p (st_tx_hash t) = false) ->
  (forall t e, t ∈ l -> E e -> tx_ok digest verify gap e t) ->
  (mp_len p + length l <= n)%nat -> (mp_slots p + length l <= 4 * n)%nat ->
  received digest verify gap E p (enc_txs l ++ rest) p' ->
  mp_inv n gap' p' /\ (exists new, Permutation new l /\ entries p' = entries p ++ map (fun t => (t, false)) new) /\
  mp_len p' = (mp_len p + length l)%nat /\ mp_slots p' = (mp_slots p + length l)%nat /\ mp_out p' = mp_out p.
Proof.
  intros digest verify gap n gap' p E l rest p' Hp Hpl Hf Hnd Hnew Hok Hlen Hslot H.
  pose proof (C66_roundtrip_transactions l rest Hpl Hf) as Hd.
  destruct H as [Hb|l' tes Hd' Hperm HE]; [exfalso; exact (Hb l Hd)|].
  rewrite Hd in Hd'. injection Hd' as <-.
  assert (Hl : length tes = length l) by (rewrite <- (Permutation_length Hperm), map_length; reflexivity).
  assert (Hin : forall t e, (t, e) ∈ tes -> t ∈ l).
  { intros t e X. rewrite <- Hperm. apply elem_of_list_fmap. exists (t, e). auto. }
  destruct (batch_room digest verify gap n gap' p tes Hp) as (I1 & I2 & I3 & I4 & I5).
  - intros t e X. exact (Hok t e (Hin t e X) (HE t e X)).
  - assert (EE : map (fun te : signed_tx * env => st_tx_hash te.1) tes = map st_tx_hash (map fst tes)) by (rewrite map_map; reflexivity).
    rewrite EE. rewrite Hperm. exact Hnd.
  - intros t e X. exact (Hnew t (Hin t e X)).
  - lia.
  - lia.
  - rewrite Hl in I3, I4. split; [exact I1|]. split; [|auto].
    exists (map fst tes). split; [exact Hperm|]. rewrite I2, map_map. reflexivity.
Qed.

Lemma pooled_after n gap' p q new l : mp_inv n gap' p -> mp_inv n gap' q -> Permutation new l ->
  entries q = entries p ++ map (fun t => (t, false)) new ->
  (forall t, t ∈ l -> mp_pooled q (st_tx_hash t) = Some t) /\
  (forall h, h ∉ map st_tx_hash l -> mp_pooled q h = mp_pooled p h).
Proof.
  intros Hp Hq Hperm He. split.
  - intros t Ht. apply (pooled_entry n gap' q Hq). exists false. split; [|reflexivity]. rewrite He. apply elem_of_app. right.
    apply elem_of_list_fmap. exists t. split; [reflexivity|]. rewrite Hperm. exact Ht.
  - intros h Hh. destruct (mp_pooled p h) as [t|] eqn:E1.
    + apply (pooled_entry n gap' q Hq). apply (pooled_entry n gap' p Hp) in E1 as (b & E1 & E2). exists b. split; [|exact E2].
      rewrite He. apply elem_of_app. left. exact E1.
    + destruct (mp_pooled q h) as [t|] eqn:E2; [exfalso|reflexivity].
      apply (pooled_entry n gap' q Hq) in E2 as (b & E2 & E3). rewrite He in E2. apply elem_of_app in E2 as [E2|E2].
      * assert (X : mp_pooled p h = Some t) by (apply (pooled_entry n gap' p Hp); eauto). congruence.
      * apply elem_of_list_fmap in E2 as (t' & X & E2). injection X as -> ->. apply Hh. rewrite <- E3.
        apply elem_of_list_fmap. exists t'. split; [reflexivity|]. rewrite <- Hperm. exact E2.
Qed.

Theorem C28_batch_delivered : forall digest verify gap n gap' ops (E : env -> Prop) l rest p',
  let p := pool_after digest verify n gap gap' ops in
  Forall tx_plain l -> fits (enc_txs l) -> NoDup (map st_tx_hash l) ->
  (forall t, t ∈ l -> mp_contains p (st_tx_hash t) = false) ->
  (forall t e, t ∈ l -> E e -> tx_ok digest verify gap e t) ->
  (mp_len p + length l <= n)%nat -> (mp_slots p + length l <= 4 * n)%nat ->
  received digest verify gap E p (enc_txs l ++ rest) p' ->
  (forall t, t ∈ l -> mp_pooled p' (st_tx_hash t) = Some t) /\
  (forall h, h ∉ map st_tx_hash l -> mp_pooled p' h = mp_pooled p h) /\
  mp_len p' = (mp_len p + length l)%nat /\ mp_out p' = mp_out p.
Proof.
  intros digest verify gap n gap' ops E l rest p' p Hpl Hf Hnd Hnew Hok Hlen Hslot H.
  pose proof (pool_inv digest verify n gap gap' ops) as Hp. fold p in Hp.
  destruct (batch_delivered digest verify gap n gap' p E l rest p' Hp Hpl Hf Hnd Hnew Hok Hlen Hslot H)
    as (I1 & (new & I2 & I3) & I4 & _ & I5).
  destruct (pooled_after n gap' p p' new l Hp I1 I2 I3) as [K1 K2]. auto.
Qed.
Print Assumptions C28_batch_delivered.

(** ** From one node's users to another node's pool.  [ops] is the sender's
    history, [es] a history of its broadcaster that was handed what the pool
    handed over; the receiver gets the messages of the batches, in some order. *)
Lemma all_delivered digest verify gap n gap' (E : env -> Prop) : forall ks p q,
  mp_inv n gap' p ->
  Forall (fun k => Forall tx_plain k /\ fits (enc_txs k)) ks ->
  NoDup (map st_tx_hash (concat ks)) ->
  (forall t, t ∈ concat ks -> mp_contains p (st_tx_hash t) = false) ->
  (forall t e, t ∈ concat ks -> E e -> tx_ok digest verify gap e t) ->
  (mp_len p + length (concat ks) <= n)%nat -> (mp_slots p + length (concat ks) <= 4 * n)%nat ->
  received_all digest verify gap E p (map enc_txs ks) q ->
  mp_inv n gap' q /\ (exists new, Permutation new (concat ks) /\ entries q = entries p ++ map (fun t => (t, false)) new) /\
  mp_out q = mp_out p.
Proof.
  induction ks as [|k ks IH]; intros p q Hp Hks Hnd Hnew Hok Hlen Hslot H.
  { inversion H; subst. split; [exact Hp|]. split; [|reflexivity]. exists []. cbn. rewrite app_nil_r. auto. }
  cbn [map concat] in *. inversion H as [|? ? p1 ? ? R1 R2]; subst. apply Forall_cons in Hks as [[Hk1 Hk2] Hks].
  rewrite app_length in Hlen, Hslot. rewrite map_app in Hnd. apply NoDup_app in Hnd as (N1 & N2 & N3).
  assert (L1 : forall t, t ∈ k -> t ∈ k ++ concat ks) by (intros t X; apply elem_of_app; left; exact X).
  assert (L2 : forall t, t ∈ concat ks -> t ∈ k ++ concat ks) by (intros t X; apply elem_of_app; right; exact X).
  pose proof (batch_delivered digest verify gap n gap' p E k [] p1 Hp Hk1 Hk2 N1
    (fun t X => Hnew t (L1 t X)) (fun t e X => Hok t e (L1 t X)) ltac:(lia) ltac:(lia)) as G.
  rewrite app_nil_r in G. destruct (G R1) as (I1 & (new1 & I2 & I3) & I4 & I5 & I6).
  destruct (IH p1 q I1 Hks N3) as (J1 & (new2 & J2 & J3) & J4).
  - intros t X. destruct (mp_contains p1 (st_tx_hash t)) eqn:Ec; [exfalso|reflexivity].
    apply (contains_entry n gap' p1 I1) in Ec. rewrite I3, map_app in Ec. apply elem_of_app in Ec as [Ec|Ec].
    + apply (contains_entry n gap' p Hp) in Ec. rewrite (Hnew t (L2 t X)) in Ec. discriminate Ec.
    + rewrite map_map in Ec. apply elem_of_list_fmap in Ec as (t' & Ec & Ht'). unfold e_hash in Ec. cbn in Ec.
      apply (N2 (st_tx_hash t')).
      * apply elem_of_list_fmap. exists t'. split; [reflexivity|]. rewrite <- I2. exact Ht'.
      * rewrite <- Ec. apply elem_of_list_fmap. exists t. auto.
  - intros t e X. exact (Hok t e (L2 t X)).
  - lia.
  - lia.
  - exact R2.
  - split; [exact J1|]. split; [|congruence]. exists (new1 ++ new2). split.
    + apply Permutation_app; assumption.
    + rewrite J3, I3, map_app, <- app_assoc. reflexivity.
Qed.

Theorem C28_gossip_delivers : forall (Er : Type) digest verify gap size n1 g1 gs ops1 (es : list (bev Er)) n gap' ops (E : env -> Prop) ks q,
  (* the sender: its pool, and its broadcaster fed by the pool *)
  let sender := pool_after digest verify n1 gs g1 ops1 in
  let b := b_run size b_new es in
  handed es = mp_out sender -> b_cache b = [] -> b_chan b = [] -> Permutation ks (map fst (b_sent b)) ->
  (* the receiver, with room for all of it *)
  let p := pool_after digest verify n gap gap' ops in
  Forall (fun k => Forall tx_plain k /\ fits (enc_txs k)) ks -> NoDup (map st_tx_hash (mp_out sender)) ->
  (forall t, t ∈ mp_out sender -> mp_contains p (st_tx_hash t) = false) ->
  (forall t e, t ∈ mp_out sender -> E e -> tx_ok digest verify gap e t) ->
  (mp_len p + length (mp_out sender) <= n)%nat -> (mp_slots p + length (mp_out sender) <= 4 * n)%nat ->
  received_all digest verify gap E p (map enc_txs ks) q ->
  (forall t, t ∈ mp_out sender -> mp_pooled q (st_tx_hash t) = Some t) /\
  (forall h, h ∉ map st_tx_hash (mp_out sender) -> mp_pooled q h = mp_pooled p h) /\
  mp_out q = mp_out p.
Proof.
  intros Er digest verify gap size n1 g1 gs ops1 es n gap' ops E ks q sender b Hh Hca Hch Hks p Hpl Hnd Hnew Hok Hlen Hslot H.
  pose proof (run_all size es) as A. fold b in A. unfold all_txs in A. rewrite Hca, Hch, !app_nil_r in A.
  assert (P : Permutation (concat ks) (mp_out sender)).
  { rewrite <- Hh, <- A. unfold gossiped. clear -Hks. induction Hks; cbn [concat].
    - reflexivity.
    - apply Permutation_app_head. exact IHHks.
    - rewrite !app_assoc. apply Permutation_app_tail, Permutation_app_comm.
    - etransitivity; eassumption. }
  pose proof (pool_inv digest verify n gap gap' ops) as Hp. fold p in Hp.
  destruct (all_delivered digest verify gap n gap' E ks p q Hp Hpl) as (J1 & (new & J2 & J3) & J4).
  - rewrite P. exact Hnd.
  - intros t X. apply Hnew. rewrite <- P. exact X.
  - intros t e X. apply Hok. rewrite <- P. exact X.
  - rewrite (Permutation_length P). exact Hlen.
  - rewrite (Permutation_length P). exact Hslot.
  - exact H.
  - rewrite P in J2. destruct (pooled_after n gap' p q new (mp_out sender) Hp J1 J2 J3) as [K1 K2]. auto.
Qed.
Print Assumptions C28_gossip_delivers.

(** ** False for deployments of anything but an asset.  A deployment of an
    application, which the sender's pool accepts, arrives as one of a library
    and is refused by every node; one of a native contract makes the whole
    batch it travels in undecodable, so that none of the transactions sent
    with it arrives (and no batch is sent twice: C44). *)
Theorem C28_application_refused_refuted : forall digest verify gap n gap' ops (E : env -> Prop) c nonce to f code h pk sg p',
  let p := pool_after digest verify n gap gap' ops in
  let raw ct := MkRaw c nonce to f (Deploy code ct) in
  let tx := MkSigned (raw CtApp) h pk sg in
  h = digest (enc_raw (raw CtApp)) -> digest (enc_raw (raw CtLibrary)) <> digest (enc_raw (raw CtApp)) ->
  fits (enc_txs [tx]) -> received digest verify gap E p (enc_txs [tx]) p' ->
  forall h, mp_pooled p' h = mp_pooled p h.
Proof.
  intros digest verify gap n gap' ops E c nonce to f code h pk sg p' p raw tx Hh Hd Hf H h'.
  pose proof (proj1 (C66_deployment_altered_refuted c nonce to f code h pk sg) Hf) as Hdec.
  pose proof (C28_any_message digest verify gap n gap' ops E _ p' H) as (_ & K1 & K2). fold p in K1, K2.
  destruct (mp_pooled p h') as [t|] eqn:E1; [exact (K1 h' t E1)|].
  destruct (mp_pooled p' h') as [t|] eqn:E2; [exfalso|reflexivity].
  destruct (K2 h' t E2 E1) as (Ht & (l & Hl & Hin) & _ & e & _ & _ & Hdg & _).
  pose proof (eq_trans (eq_sym Hl) Hdec) as X. injection X as X. subst l.
  apply elem_of_list_singleton in Hin. subst t.
  apply Hd. transitivity h'; [exact Hdg|]. rewrite <- Hh. symmetry. exact Ht.
Qed.
Print Assumptions C28_application_refused_refuted.

Theorem C28_native_poisons_batch_refuted : forall digest verify gap p (E : env -> Prop) l1 l2 c nonce to f code h pk sg p',
  let tx := MkSigned (MkRaw c nonce to f (Deploy code CtNative)) h pk sg in
  fits (enc_txs (l1 ++ tx :: l2)) -> received digest verify gap E p (enc_txs (l1 ++ tx :: l2)) p' -> p' = p.
Proof.
  intros digest verify gap p E l1 l2 c nonce to f code h pk sg p' tx Hf H.
  destruct H as [Hb|l' tes Hd' Hperm HE]; [reflexivity|exfalso].
  unfold dec_txs, dec_multi, enc_txs, enc_multi in *.
  pose proof (bdec_vec_bytes wenc_signed (l1 ++ tx :: l2) [] Hf) as X. rewrite app_nil_r in X. rewrite X in Hd'.
  assert (Hin : tx ∈ l1 ++ tx :: l2) by (apply elem_of_app; right; left).
  assert (W : wdec_signed (wenc_signed tx) = Err InvalidContractType).
  { rewrite wire_signed; [reflexivity|]. apply (multi_fits_elem wenc_signed (l1 ++ tx :: l2) tx Hin Hf). }
  assert (B : forall bs, map_res wdec_signed (map wenc_signed (l1 ++ tx :: l2)) <> Ok bs).
  { apply (map_res_bad wdec_signed _ (wenc_signed tx)).
    - apply elem_of_list_fmap. exists tx. auto.
    - intros b. rewrite W. discriminate. }
  destruct (map_res wdec_signed (map wenc_signed (l1 ++ tx :: l2))) as [bs| |]; [exact (B bs eq_refl)|discriminate Hd'..].
Qed.
Print Assumptions C28_native_poisons_batch_refuted.

(** ** The hypotheses of the theorems are met *)
Lemma plain_transfer t r c : rt_action (st_raw t) = Transfer r c -> tx_plain t.
Proof. intros E. unfold tx_plain. rewrite E. exact I. Qed.
Lemma fits_chk b : (blen b <? two64) = true -> fits b.
Proof. intros H. apply N.ltb_lt in H. exact H. Qed.

Definition g1 : signed_tx := ex_tx x01 10 100.
Definition g2 : signed_tx := ex_tx x02 10 100.
Definition gsend : list mp_op := [ins x01 10 100; ins x02 10 100].
Definition gbatch : list (bev N) := [BSend g1 true; BTx None; BSend g2 true; BTx None; BTimer; BSignal None].
Lemma g_distinct : heq (st_tx_hash g1) (st_tx_hash g2) = false.
Proof. vm_compute. reflexivity. Qed.
Lemma g_fits : (blen (enc_txs [g1; g2]) <? two64) = true.
Proof. vm_compute. reflexivity. Qed.
Lemma g_ok : tx_ok keccak vtrue gap20 (at_epoch 1) g1 /\ tx_ok keccak vtrue gap20 (at_epoch 1) g2.
Proof. split; vm_compute; reflexivity. Qed.

Lemma g_out : mp_out (pool 3 gsend) = [g1; g2].
Proof.
  unfold pool_after, gsend, ins. fold g1 g2. destruct g_ok as [K1 K2].
  pose proof (inv_new 3 gap20) as H0.
  pose proof (insert_outcome keccak vtrue 3 gap20 gap20 (mp_new 3 gap20) false g1 (at_epoch 1) (Ok tt) H0) as H.
  cbn [mp_run mp_step]. destruct (mp_insert keccak vtrue gap20 (mp_new 3 gap20) false g1 (at_epoch 1) (Ok tt)) as [r p1].
  destruct H as (I1 & _ & [(_ & _ & Ee & Es & Eo)|(A & _)]).
  2:{ exfalso. apply A. split; [change (0 < 3)%nat; lia|]. split; [reflexivity|]. split; [exact K1|change (0 < 12)%nat; lia]. }
  pose proof (insert_outcome keccak vtrue 3 gap20 gap20 p1 false g2 (at_epoch 1) (Ok tt) I1) as H.
  destruct (mp_insert keccak vtrue gap20 p1 false g2 (at_epoch 1) (Ok tt)) as [r2 p2].
  destruct H as (I2 & _ & [(_ & _ & Ee2 & Es2 & Eo2)|(A & _)]).
  2:{ exfalso. apply A. split; [rewrite (len_entries 3 gap20 p1 I1), Ee; cbn; lia|]. split.
      - destruct (mp_contains p1 (st_tx_hash g2)) eqn:Ec; [exfalso|reflexivity]. apply (contains_entry 3 gap20 p1 I1) in Ec.
        rewrite Ee in Ec. apply elem_of_list_singleton in Ec. change (e_hash (g1, false)) with (st_tx_hash g1) in Ec.
        pose proof g_distinct as D. unfold heq in D. apply bool_decide_eq_false in D. congruence.
      - split; [exact K2|]. rewrite Es. change (mp_slots (mp_new 3 gap20)) with 0%nat. lia. }
  cbn [snd]. rewrite Eo2, Eo. reflexivity.
Qed.

Example C28_example : exists q,
  let sender := pool_after keccak vtrue 3 gap20 gap20 gsend in
  let b := b_run 5 b_new gbatch in
  handed gbatch = mp_out sender /\ mp_out sender = [g1; g2] /\ b_cache b = [] /\ b_chan b = [] /\ map fst (b_sent b) = [[g1; g2]] /\
  let p := pool_after keccak vtrue 2 gap20 gap20 [] in
  Forall (fun k => Forall tx_plain k /\ fits (enc_txs k)) [[g1; g2]] /\ NoDup (map st_tx_hash [g1; g2]) /\
  (forall t, t ∈ [g1; g2] -> mp_contains p (st_tx_hash t) = false) /\
  (forall t e, t ∈ [g1; g2] -> e = at_epoch 1 -> tx_ok keccak vtrue gap20 e t) /\
  mp_len p = 0%nat /\ mp_slots p = 0%nat /\
  received_all keccak vtrue gap20 (fun e => e = at_epoch 1) p (map enc_txs [[g1; g2]]) q /\
  mp_pooled q (st_tx_hash g1) = Some g1 /\ mp_pooled q (st_tx_hash g2) = Some g2 /\ mp_out q = [].
Proof.
  assert (Hpl : Forall (fun k => Forall tx_plain k /\ fits (enc_txs k)) [[g1; g2]]).
  { constructor; [|constructor]. split; [|apply fits_chk; exact g_fits].
    constructor; [eapply plain_transfer; reflexivity|]. constructor; [eapply plain_transfer; reflexivity|constructor]. }
  assert (Hnd : NoDup (map st_tx_hash [g1; g2])).
  { cbn [map]. apply NoDup_cons. split; [|apply NoDup_singleton]. intros X. apply elem_of_list_singleton in X.
    pose proof g_distinct as D. unfold heq in D. apply bool_decide_eq_false in D. congruence. }
  assert (Hok : forall t e, t ∈ [g1; g2] -> e = at_epoch 1 -> tx_ok keccak vtrue gap20 e t).
  { intros t e Ht ->. destruct g_ok as [K1 K2]. apply elem_of_cons in Ht as [->|Ht]; [exact K1|].
    apply elem_of_list_singleton in Ht. subst t. exact K2. }
  set (tes := [(g2, at_epoch 1); (g1, at_epoch 1)]).
  set (p := pool_after keccak vtrue 2 gap20 gap20 []).
  assert (Hr : received keccak vtrue gap20 (fun e => e = at_epoch 1) p (enc_txs [g1; g2])
                 (snd (mp_run keccak vtrue gap20 p (gossip_ops tes)))).
  { apply (rc_batch keccak vtrue gap20 _ p _ [g1; g2] tes).
    - apply Forall_cons in Hpl as [[P1 P2] _]. pose proof (C66_roundtrip_transactions [g1; g2] [] P1 P2) as X.
      rewrite app_nil_r in X. exact X.
    - apply perm_swap.
    - intros t e X. apply elem_of_cons in X as [X|X]; [congruence|]. apply elem_of_list_singleton in X. congruence. }
  assert (Hra : received_all keccak vtrue gap20 (fun e => e = at_epoch 1) p (map enc_txs [[g1; g2]])
                 (snd (mp_run keccak vtrue gap20 p (gossip_ops tes)))).
  { eapply ra_cons; [exact Hr|apply ra_nil]. }
  assert (Hb : b_cache (b_run 5 b_new gbatch) = [] /\ b_chan (b_run 5 b_new gbatch) = [] /\
               map fst (b_sent (b_run 5 b_new gbatch)) = [[g1; g2]]) by (split; [|split]; reflexivity).
  destruct Hb as (B1 & B2 & B3).
  assert (Hh : handed gbatch = mp_out (pool 3 gsend)) by (rewrite g_out; reflexivity).
  assert (Hnew : forall t, t ∈ [g1; g2] -> mp_contains p (st_tx_hash t) = false) by (intros; reflexivity).
  pose proof (C28_gossip_delivers N keccak vtrue gap20 5 3 gap20 gap20 gsend gbatch 2 gap20 [] (fun e => e = at_epoch 1) [[g1; g2]]
    (snd (mp_run keccak vtrue gap20 p (gossip_ops tes))) Hh B1 B2) as G. rewrite B3, g_out in G.
  destruct (G (Permutation_refl _) Hpl Hnd Hnew Hok ltac:(change (2 <= 2)%nat; lia) ltac:(change (2 <= 8)%nat; lia) Hra) as (R1 & R2 & R3).
  exists (snd (mp_run keccak vtrue gap20 p (gossip_ops tes))). cbn zeta.
  split; [exact Hh|]. split; [exact g_out|]. split; [exact B1|]. split; [exact B2|]. split; [exact B3|].
  split; [exact Hpl|]. split; [exact Hnd|]. split; [exact Hnew|]. split; [exact Hok|]. split; [reflexivity|]. split; [reflexivity|].
  split; [exact Hra|]. split; [apply R1; left|]. split; [apply R1; right; left|exact R3].
Qed.
Print Assumptions C28_example.

(** A deployment of an application is accepted by the sender's checks. *)
Definition g_raw (ct : contract_type) : raw_tx :=
  MkRaw chain0 (Sized (n := 32) (x07 :: repeat x00 31) eq_refl) (wrap64 10) (MkFee chain0 (wrap64 100)) (Deploy [x01] ct).
Definition g_app (ct : contract_type) : signed_tx := MkSigned (g_raw ct) (keccak (enc_raw (g_raw ct))) [x01] [x05].
Example C28_deploy_example :
  tx_ok keccak vtrue gap20 (at_epoch 1) (g_app CtApp) /\ tx_ok keccak vtrue gap20 (at_epoch 1) (g_app CtNative) /\
  heq (keccak (enc_raw (g_raw CtLibrary))) (keccak (enc_raw (g_raw CtApp))) = false /\
  (blen (enc_txs [g_app CtApp]) <? two64) = true /\ (blen (enc_txs ([g1] ++ g_app CtNative :: [g2])) <? two64) = true.
Proof. split; [|split; [|split; [|split]]]; vm_compute; reflexivity. Qed.
Print Assumptions C28_deploy_example.
