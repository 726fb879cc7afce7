(** * Invariants of a node's histories. *)
From Verif Require Import Base BaseFacts Hex Types Rlp RlpFacts FixedCodec FixedCodecFacts CodecProps StateAdapter Executor Mempool
  Merkle Bincode ConsMsg Proto ProtoFacts Wire WireFacts Storage StorageSpec StorageFacts StorageProps Consensus ConsSpec ConsFacts.
From Coq Require Strings.String.
Import String.StringSyntax.
Delimit Scope string_scope with string.
Local Open Scope N_scope.

Ltac splits := lazymatch goal with |- _ /\ _ => split; [solve [auto]|splits] | _ => idtac end.
Lemma last_all {A} (P : A -> Prop) l d : P d -> Forall P l -> P (List.last l d).
Proof. intros Hd H. induction H as [|x l Hx H IH]; [exact Hd|]. destruct l; [exact Hx|exact IH]. Qed.
Lemma take_all {A} (P : A -> Prop) k l : Forall P l -> Forall P (take k l).
Proof. intros H. apply Forall_take, H. Qed.
Lemma last_cons_default {A} (x : A) l d : List.last (x :: l) d = List.last l x.
Proof.
  revert x d; induction l as [|y l IH]; intros x d; [reflexivity|].
  transitivity (List.last (y :: l) d); [reflexivity|]. rewrite (IH y d), (IH y x). reflexivity.
Qed.

Section Inv.
  Context (digest : bytes -> hash) (root_of : gmap bytes bytes -> hash) (show : exec_err -> rstring)
          (verify : bytes -> bytes -> bytes -> bool) (shapes : nat -> shape).
  Context (cf : config).
  Notation run_call := (run_call digest root_of show verify shapes cf).
  Notation happens := (happens digest root_of show verify shapes cf).
  Notation history := (Consensus.history digest root_of show verify shapes cf).
  Notation along := (along digest root_of show verify shapes cf).
  Notation LK := (1, wenc_hash (LATEST_EPOCH_KEY digest)).
  Notation PK := (1, wenc_hash (LATEST_PROOF_KEY digest)).
  Notation EK i := (1, wenc_epoch_id (MkEpochId i)).

  (** ** A call's node holds the last state of its trace *)
  Lemma call_last c n r n' t : run_call c n = (r, n', t) -> nd_disk n' = List.last t (nd_disk n).
  Proof.
    destruct (light_call c) eqn:L.
    { intros H. apply light_call_out in H as [(p & x & -> & _) ->]; [reflexivity|exact L]. }
    destruct c as [| | |id cm|os sent|msg first|os re rt]; try discriminate; cbn [Consensus.run_call]; unfold abind at 1.
    - destruct (commit_start _ _ _ _) as [[r1 n1] t1] eqn:E. apply commit_start_out in E.
      intros H. assert (n' = n1 /\ t = t1) as [-> ->] by (destruct r1; injection H as <- <- <-; rewrite ?app_nil_r; auto).
      destruct E; reflexivity.
    - destruct (commit_finish _ _ _ _ _ _ _ _) as [[r1 n1] t1] eqn:E. apply commit_finish_out in E.
      intros H. assert (n' = n1 /\ t = t1) as [-> ->] by (destruct r1; injection H as <- <- <-; rewrite ?app_nil_r; auto).
      destruct E; [reflexivity|reflexivity|]. rewrite last_cons_default, persist_last. reflexivity.
    - destruct (sync_start _ _ _ _) as [[r1 n1] t1] eqn:E. apply sync_start_out in E as [E ->].
      intros H. assert (n' = n1 /\ t = []) as [-> ->] by (destruct r1; injection H as <- <- <-; auto).
      destruct E; reflexivity.
    - destruct (sync_step _ _ _ _ _ _ _ _ _) as [[r1 n1] t1] eqn:E. apply sync_step_out in E.
      intros H. assert (n' = n1 /\ t = t1) as [-> ->] by (destruct r1; injection H as <- <- <-; rewrite ?app_nil_r; auto).
      destruct E; reflexivity.
  Qed.

  (** The shape of a call's effect, without the lifting to [reply]. *)
  Lemma call_commit id cm n r n' t : run_call (CallCommit id cm) n = (r, n', t) ->
    exists r1, commit_start_spec digest id cm n r1 n' t.
  Proof.
    cbn [Consensus.run_call]. unfold abind at 1. destruct (commit_start _ _ _ _) as [[r1 n1] t1] eqn:E. apply commit_start_out in E.
    intros H. assert (n' = n1 /\ t = t1) as [-> ->] by (destruct r1; injection H as <- <- <-; rewrite ?app_nil_r; auto). eauto.
  Qed.
  Lemma call_rest os sent n r n' t : run_call (CallCommitRest os sent) n = (r, n', t) ->
    exists r1, commit_finish_spec digest root_of show shapes cf os sent n r1 n' t.
  Proof.
    cbn [Consensus.run_call]. unfold abind at 1. destruct (commit_finish _ _ _ _ _ _ _ _) as [[r1 n1] t1] eqn:E. apply commit_finish_out in E.
    intros H. assert (n' = n1 /\ t = t1) as [-> ->] by (destruct r1; injection H as <- <- <-; rewrite ?app_nil_r; auto). eauto.
  Qed.
  Lemma call_sync msg first n r n' t : run_call (CallSync msg first) n = (r, n', t) ->
    exists r1, sync_start_spec digest first n r1 n' /\ t = [].
  Proof.
    cbn [Consensus.run_call]. unfold abind at 1. destruct (sync_start _ _ _ _) as [[r1 n1] t1] eqn:E. apply sync_start_out in E as [E ->].
    intros H. assert (n' = n1 /\ t = []) as [-> ->] by (destruct r1; injection H as <- <- <-; auto). eauto.
  Qed.
  Lemma call_sync_epoch os re rt n r n' t : run_call (CallSyncEpoch os re rt) n = (r, n', t) ->
    exists r1, sync_step_spec digest root_of show shapes cf os re rt n r1 n' t.
  Proof.
    cbn [Consensus.run_call]. unfold abind at 1. destruct (sync_step _ _ _ _ _ _ _ _ _) as [[r1 n1] t1] eqn:E. apply sync_step_out in E.
    intros H. assert (n' = n1 /\ t = t1) as [-> ->] by (destruct r1; injection H as <- <- <-; rewrite ?app_nil_r; auto). eauto.
  Qed.

  (** ** Booting *)
  Lemma handle_init_out o1 o2 d r t : handle_init digest root_of cf o1 o2 d = (r, t) ->
    (t = [] /\ (forall d', r = Ok d' -> d' = d)) \/
    (get_latest_epoch rocks_col digest d.1 = Err GetNone /\
     exists root tr, genesis_state digest root_of cf o1 o2 d.2 = Ok (root, tr) /\
       t = (d.1, tr) :: persist_all (d.1, tr) (genesis_writes digest cf root) /\ r = Ok (List.last t d)).
  Proof.
    unfold handle_init. destruct (get_latest_epoch rocks_col digest d.1) as [e|[]|] eqn:El.
    1: intros [= <- <-]; left; split; [reflexivity|congruence].
    2-4: intros [= <- <-]; left; split; [reflexivity|discriminate].
    destruct (genesis_state digest root_of cf o1 o2 d.2) as [[root tr]|x|] eqn:Eg.
    2-3: intros [= <- <-]; left; split; [reflexivity|discriminate].
    intros [= <- <-]. right. split; [reflexivity|]. exists root, tr. rewrite last_cons_default. auto.
  Qed.
  Lemma start_out d n : start digest cf d = Ok n -> exists e, get_latest_epoch rocks_col digest d.1 = Ok e /\
    n = MkNode (start_status digest cf e) [] (mp_new (cf_pool_size cf) (cf_gap cf)) d Idle (nd_out n).
  Proof.
    unfold start. destruct (get_latest_epoch rocks_col digest d.1) as [e|x|]; try discriminate. intros [= <-]. eauto.
  Qed.

  (** ** Induction over histories *)
  Definition holds (P : durable -> Prop) (Q : node -> Prop) (m : machine) : Prop :=
    match m with Down d => P d | Up n => P (nd_disk n) /\ Q n end.

  Lemma machine_inv (P : durable -> Prop) (Q : node -> Prop) (C : machine -> event -> Prop) :
    (forall n c k, C (Up n) (EvCrash c k) -> C (Up n) (EvCall c)) ->
    (forall d o1 o2 k, C (Down d) (EvBootCrash o1 o2 k) -> C (Down d) (EvBoot o1 o2)) ->
    P (∅, ∅) ->
    (forall n c r n' t, P (nd_disk n) -> Q n -> C (Up n) (EvCall c) -> run_call c n = (r, n', t) -> Forall P t /\ Q n') ->
    (forall d o1 o2 root tr, P d -> C (Down d) (EvBoot o1 o2) -> get_latest_epoch rocks_col digest d.1 = Err GetNone ->
       genesis_state digest root_of cf o1 o2 d.2 = Ok (root, tr) ->
       Forall P ((d.1, tr) :: persist_all (d.1, tr) (genesis_writes digest cf root))) ->
    (forall d n, P d -> start digest cf d = Ok n -> Q n) ->
    forall l, along C (Down (∅, ∅)) l -> holds P Q (history l).
  Proof.
    intros HC HB P0 Hstep Hgen Hstart l. unfold Consensus.history.
    assert (forall m, holds P Q m -> along C m l -> holds P Q (fold_left happens l m)) as G; [|intros H; apply G; [exact P0|exact H]].
    induction l as [|ev l IH]; intros m Hm Hl; [exact Hm|]. cbn [ConsSpec.along fold_left] in *. destruct Hl as [Hc Hl].
    apply IH; [|exact Hl]. clear IH Hl l.
    destruct ev as [c|c k|o1 o2|o1 o2 k]; destruct m as [d|n]; cbn [Consensus.happens holds] in *; try exact Hm.
    - destruct (run_call c n) as [[r n'] t] eqn:E. cbn [holds]. destruct Hm as [Hp Hq].
      destruct (Hstep _ _ _ _ _ Hp Hq Hc E) as [Ht Hq']. split; [|exact Hq'].
      rewrite (call_last _ _ _ _ _ E). apply last_all; assumption.
    - destruct (run_call c n) as [[r n'] t] eqn:E. cbn [holds]. destruct Hm as [Hp Hq].
      destruct (Hstep _ _ _ _ _ Hp Hq (HC _ _ _ Hc) E) as [Ht Hq']. apply last_all; [exact Hp|]. apply take_all, Ht.
    - destruct (handle_init digest root_of cf o1 o2 d) as [r t] eqn:E.
      apply handle_init_out in E as [[-> Hd]|(Hn & root & tr & Eg & Et & Er)].
      + destruct r as [d'|x|]; [|exact Hm..]. rewrite (Hd d' eq_refl).
        destruct (start digest cf d) as [n|x|] eqn:Es; [|exact Hm..]. split; [|exact (Hstart _ _ Hm Es)].
        apply start_out in Es as (e & _ & ->). exact Hm.
      + pose proof (Hgen d o1 o2 root tr Hm Hc Hn Eg) as F. rewrite <- Et in F.
        assert (P (List.last t d)) as Hp by (apply last_all; assumption). rewrite Er.
        destruct (start digest cf (List.last t d)) as [n|x|] eqn:Es; [|exact Hp..]. split; [|exact (Hstart _ _ Hp Es)].
        apply start_out in Es as (e & _ & ->). exact Hp.
    - destruct (handle_init digest root_of cf o1 o2 d) as [r t] eqn:E.
      apply handle_init_out in E as [[-> Hd]|(Hn & root & tr & Eg & Et & Er)].
      + rewrite take_nil. exact Hm.
      + pose proof (Hgen d o1 o2 root tr Hm (HB _ _ _ _ Hc) Hn Eg) as F. rewrite <- Et in F.
        apply last_all; [exact Hm|]. apply take_all, F.
  Qed.

  Lemma along_and C1 C2 l : forall m, along C1 m l -> along C2 m l -> along (fun m e => C1 m e /\ C2 m e) m l.
  Proof. induction l as [|e l IH]; intros m; cbn [ConsSpec.along]; [auto|]. intros [] []. auto. Qed.
  Lemma along_impl (C1 C2 : machine -> event -> Prop) l : (forall m e, C1 m e -> C2 m e) -> forall m, along C1 m l -> along C2 m l.
  Proof. intros H. induction l as [|e l IH]; intros m; cbn [ConsSpec.along]; [auto|]. intros []. auto. Qed.

  (** ** Epochs that may be stored *)
  Definition ep_ok (e : epoch) : Prop :=
    fits (wenc_epoch e) /\ epoch_index_key digest e <> LATEST_EPOCH_KEY digest /\ epoch_index_key digest e <> LATEST_PROOF_KEY digest.
  Definition seen_ok (m : machine) (e : event) : Prop := Forall ep_ok (event_epochs digest root_of cf m e).

  Lemma epochs_ok_seen l : epochs_ok digest root_of show verify shapes cf l ->
    along seen_ok (Down (∅, ∅)) l /\ LATEST_EPOCH_KEY digest <> LATEST_PROOF_KEY digest.
  Proof.
    unfold epochs_ok. intros [Hf Hn]. set (L := epochs_seen _ _ _ _ _ _ _ _) in *. split.
    - assert (forall e, e ∈ L -> ep_ok e) as Hall.
      { intros e He. split; [rewrite Forall_forall in Hf; apply Hf, He|].
        destruct (header_nonfixed (ep_header e) _ eq_refl) as [N1 N2].
        assert (wenc_header (ep_header e) ∈ ascii "latest_hash"%string :: ascii "latest_proof"%string ::
                  map (fun e => wenc_header (ep_header e)) L) as I.
        { do 2 (apply elem_of_cons; right). apply elem_of_list_fmap_1_alt with e; [exact He|reflexivity]. }
        unfold epoch_index_key, LATEST_EPOCH_KEY, LATEST_PROOF_KEY.
        split; intros H; apply Hn in H; try exact I; try congruence.
        - apply elem_of_cons; left; reflexivity.
        - apply elem_of_cons; right. apply elem_of_cons; left; reflexivity. }
      clear Hf Hn. revert Hall. unfold L. clear L. generalize (Down (∅, ∅)) as m.
      induction l as [|e l IH]; intros m Hall; cbn [ConsSpec.along epochs_seen] in *; [exact I|]. split.
      + apply Forall_forall. intros x Hx. apply Hall, elem_of_app. left; exact Hx.
      + apply IH. intros x Hx. apply Hall, elem_of_app. right; exact Hx.
    - unfold LATEST_EPOCH_KEY, LATEST_PROOF_KEY. intros H. apply Hn in H; [discriminate| |].
      + apply elem_of_cons; left; reflexivity.
      + apply elem_of_cons; right. apply elem_of_cons; left; reflexivity.
  Qed.

  (** ** The writes of an epoch, one by one *)
  Definition w_receipts (m : db) (l : list receipt) : db := apply_write m (batch_insert rocks_col ReceiptSchema rc_tx_hash l).
  Definition w_txs (m : db) (l : list signed_tx) : db := apply_write m (batch_insert rocks_col TransactionSchema st_tx_hash l).
  Definition w_epoch (m : db) (e : epoch) : db := <[EK (eh_epoch_id (ep_header e)) := wenc_epoch e]> m.
  Definition w_index (m : db) (e : epoch) : db :=
    <[(1, wenc_hash (epoch_index_key digest e)) := wenc_epoch_id (MkEpochId (eh_epoch_id (ep_header e)))]> m.
  Definition w_latest (m : db) (e : epoch) : db := <[LK := wenc_epoch e]> m.
  Definition w_proof (m : db) (p : proof) : db := <[PK := wenc_proof p]> m.

  Lemma applied_trace (m : db) (tr : trie_db) e resp txs :
    persist_all (m, tr) (applied_writes digest e resp txs) =
    let m1 := w_receipts m (er_receipts resp) in let m2 := w_txs m1 txs in
    let m3 := w_epoch m2 e in let m4 := w_index m3 e in let m5 := w_latest m4 e in
    [(m1, tr); (m2, tr); (m3, tr); (m4, tr); (m5, tr)].
  Proof. reflexivity. Qed.
  Lemma applied_db m e resp txs :
    apply_writes m (applied_writes digest e resp txs)
    = w_latest (w_index (w_epoch (w_txs (w_receipts m (er_receipts resp)) txs) e) e) e.
  Proof. reflexivity. Qed.
  Lemma genesis_trace (m : db) (tr : trie_db) root :
    persist_all (m, tr) (genesis_writes digest cf root) =
    let e := genesis_epoch digest cf root in
    let m3 := w_epoch m e in let m4 := w_index m3 e in let m5 := w_latest m4 e in
    [(m3, tr); (m4, tr); (m5, tr); (w_proof m5 (genesis_proof digest), tr)].
  Proof. reflexivity. Qed.
  Lemma with_proof_db (d : durable) p : with_proof digest d p = (w_proof d.1 p, d.2).
  Proof. reflexivity. Qed.

  Lemma w_receipts_other m l c k : c <> 3 -> w_receipts m l !! (c, k) = m !! (c, k).
  Proof.
    intros Hc. unfold w_receipts. rewrite lookup_apply_write. destruct (last _) as [p|] eqn:E; [|reflexivity].
    apply last_Some_elem_of, elem_of_list_filter in E as [E1 E2]. unfold batch_insert in E2.
    apply elem_of_list_fmap in E2 as (v & -> & _). injection E1 as <- _. congruence.
  Qed.
  Lemma w_txs_other m l c k : c <> 2 -> w_txs m l !! (c, k) = m !! (c, k).
  Proof.
    intros Hc. unfold w_txs. rewrite lookup_apply_write. destruct (last _) as [p|] eqn:E; [|reflexivity].
    apply last_Some_elem_of, elem_of_list_filter in E as [E1 E2]. unfold batch_insert in E2.
    apply elem_of_list_fmap in E2 as (v & -> & _). injection E1 as <- _. congruence.
  Qed.
  Lemma batch_lookup {V : Type} (m : db) (s : schema hash V) (key : V -> hash) l h :
    (forall a b, sc_kenc s a = sc_kenc s b -> a = b) ->
    (exists v, v ∈ l /\ key v = h /\
       apply_write m (batch_insert rocks_col s key l) !! (rocks_col (sc_cat s), sc_kenc s h) = Some (sc_venc s v)) \/
    (h ∉ map key l /\
       apply_write m (batch_insert rocks_col s key l) !! (rocks_col (sc_cat s), sc_kenc s h) = m !! (rocks_col (sc_cat s), sc_kenc s h)).
  Proof.
    intros Hk. rewrite lookup_apply_write, (batch_filter s key l h _ Hk eq_refl), last_map.
    destruct (last (filter _ l)) as [v|] eqn:E.
    - left. apply last_Some_elem_of, elem_of_list_filter in E as [E1 E2]. exists v. auto.
    - right. split; [|reflexivity]. intros H. apply elem_of_list_fmap in H as (v & -> & Hv).
      apply last_None in E. assert (v ∈ filter (fun x => key x = key v) l) as X by (apply elem_of_list_filter; auto).
      rewrite E in X. inversion X.
  Qed.

  (** ** Completeness *)
  Definition has_tx (m : db) (h : hash) : Prop :=
    exists t, m !! (2, wenc_hash h) = Some (wenc_signed t) /\ tx_plain t /\ st_tx_hash t = h.
  Definition has_rc (m : db) (h : hash) : Prop :=
    exists r, m !! (3, wenc_hash h) = Some (wenc_receipt r) /\ receipt_plain r /\ rc_tx_hash r = h.
  Definition complete_raw (m : db) (e : epoch) : Prop := forall h, h ∈ ep_ordered_tx_hashes e -> has_tx m h /\ has_rc m h.
  Definition sound (m : db) : Prop :=
    (forall i b, m !! EK i = Some b -> exists e, b = wenc_epoch e /\ fits (wenc_epoch e) /\ eh_epoch_id (ep_header e) = i /\ complete_raw m e) /\
    (forall b, m !! LK = Some b -> exists e, b = wenc_epoch e /\ fits (wenc_epoch e) /\ complete_raw m e).

  Lemma sound_mono (m m' : db) :
    (forall k, m' !! (1, k) = m !! (1, k)) -> (forall h, has_tx m h -> has_tx m' h) -> (forall h, has_rc m h -> has_rc m' h) ->
    sound m -> sound m'.
  Proof.
    intros H1 H2 H3 [S1 S2]. split.
    - intros i b. rewrite H1. intros H. destruct (S1 _ _ H) as (e & -> & Hf & Hi & Hc). exists e. splits.
      intros h Hh. destruct (Hc h Hh). auto.
    - intros b. rewrite H1. intros H. destruct (S2 _ H) as (e & -> & Hf & Hc). exists e. splits.
      intros h Hh. destruct (Hc h Hh). auto.
  Qed.
  Lemma has_tx_ext m m' h : (forall k, m' !! (2, k) = m !! (2, k)) -> has_tx m h -> has_tx m' h.
  Proof. intros E (t & H & X). exists t. rewrite E. auto. Qed.
  Lemma has_rc_ext m m' h : (forall k, m' !! (3, k) = m !! (3, k)) -> has_rc m h -> has_rc m' h.
  Proof. intros E (t & H & X). exists t. rewrite E. auto. Qed.

  Lemma w_receipts_has m l h : Forall receipt_plain l -> has_rc m h \/ h ∈ map rc_tx_hash l -> has_rc (w_receipts m l) h.
  Proof.
    intros Hp Hh. destruct (batch_lookup m ReceiptSchema rc_tx_hash l h wenc_hash_inj) as [(v & Hv & <- & E)|[Hn E]].
    - exists v. split; [exact E|]. rewrite Forall_forall in Hp. auto.
    - destruct Hh as [(r & Hr & X)|Hh]; [|contradiction]. exists r. split; [|exact X]. unfold w_receipts. etransitivity; [exact E|exact Hr].
  Qed.
  Lemma w_txs_has m l h : Forall tx_plain l -> has_tx m h \/ h ∈ map st_tx_hash l -> has_tx (w_txs m l) h.
  Proof.
    intros Hp Hh. destruct (batch_lookup m TransactionSchema st_tx_hash l h wenc_hash_inj) as [(v & Hv & <- & E)|[Hn E]].
    - exists v. split; [exact E|]. rewrite Forall_forall in Hp. auto.
    - destruct Hh as [(r & Hr & X)|Hh]; [|contradiction]. exists r. split; [|exact X]. unfold w_txs. etransitivity; [exact E|exact Hr].
  Qed.
  Lemma w_receipts_sound m l : Forall receipt_plain l -> sound m -> sound (w_receipts m l).
  Proof.
    intros Hp. apply sound_mono.
    - intros k. apply w_receipts_other. discriminate.
    - intros h. apply has_tx_ext. intros k. apply w_receipts_other. discriminate.
    - intros h H. apply w_receipts_has; auto.
  Qed.
  Lemma w_txs_sound m l : Forall tx_plain l -> sound m -> sound (w_txs m l).
  Proof.
    intros Hp. apply sound_mono.
    - intros k. apply w_txs_other. discriminate.
    - intros h H. apply w_txs_has; auto.
    - intros h. apply has_rc_ext. intros k. apply w_txs_other. discriminate.
  Qed.

  Lemma complete_col1 m k v e : complete_raw m e -> complete_raw (<[(1, k) := v]> m) e.
  Proof.
    intros H h Hh. destruct (H h Hh) as [A B]. split; [revert A; apply has_tx_ext|revert B; apply has_rc_ext]; intros k';
      apply lookup_insert_ne; discriminate.
  Qed.
  Lemma w_epoch_sound m e : fits (wenc_epoch e) -> complete_raw m e -> sound m -> sound (w_epoch m e).
  Proof.
    intros Hf Hc [S1 S2]. split.
    - intros i b. unfold w_epoch. destruct (decide (i = eh_epoch_id (ep_header e))) as [->|Hn].
      + rewrite lookup_insert. intros [= <-]. exists e. splits. apply complete_col1, Hc.
      + rewrite lookup_insert_ne by (intros [= H]; apply wenc_epoch_id_inj in H; congruence).
        intros H. destruct (S1 _ _ H) as (e' & -> & Hf' & Hi & Hc'). exists e'. splits. apply complete_col1, Hc'.
    - intros b. unfold w_epoch. rewrite lookup_insert_ne by (intros [= H]; exact (epoch_id_hash_disjoint _ _ H)).
      intros H. destruct (S2 _ H) as (e' & -> & Hf' & Hc'). exists e'. splits. apply complete_col1, Hc'.
  Qed.
  Lemma w_hash_sound m h v : h <> LATEST_EPOCH_KEY digest -> sound m -> sound (<[(1, wenc_hash h) := v]> m).
  Proof.
    intros Hk [S1 S2]. split.
    - intros i b. rewrite lookup_insert_ne by (intros [= H]; exact (epoch_id_hash_disjoint _ _ (eq_sym H))).
      intros H. destruct (S1 _ _ H) as (e' & -> & Hf' & Hi & Hc'). exists e'. splits. apply complete_col1, Hc'.
    - intros b. rewrite lookup_insert_ne by (intros [= H]; apply wenc_hash_inj in H; congruence).
      intros H. destruct (S2 _ H) as (e' & -> & Hf' & Hc'). exists e'. splits. apply complete_col1, Hc'.
  Qed.
  Lemma w_latest_sound m e : fits (wenc_epoch e) -> complete_raw m e -> sound m -> sound (w_latest m e).
  Proof.
    intros Hf Hc [S1 S2]. split.
    - intros i b. unfold w_latest. rewrite lookup_insert_ne by (intros [= H]; exact (epoch_id_hash_disjoint _ _ (eq_sym H))).
      intros H. destruct (S1 _ _ H) as (e' & -> & Hf' & Hi & Hc'). exists e'. splits. apply complete_col1, Hc'.
    - intros b. unfold w_latest. rewrite lookup_insert. intros [= <-]. exists e. splits. apply complete_col1, Hc.
  Qed.

  Lemma applied_sound m tr e resp txs :
    ep_ok e -> Forall tx_plain txs -> Forall receipt_plain (er_receipts resp) ->
    map st_tx_hash txs = ep_ordered_tx_hashes e -> map rc_tx_hash (er_receipts resp) = map st_tx_hash txs ->
    sound m -> Forall (fun d : durable => sound d.1) (persist_all (m, tr) (applied_writes digest e resp txs)).
  Proof.
    intros (Hf & Hk1 & Hk2) Ht Hr Ho Hh Hs. rewrite applied_trace. cbn zeta.
    set (m1 := w_receipts m (er_receipts resp)). set (m2 := w_txs m1 txs).
    assert (sound m1) as S1 by (apply w_receipts_sound; assumption).
    assert (sound m2) as S2 by (apply w_txs_sound; assumption).
    assert (complete_raw m2 e) as C2.
    { intros h H. rewrite <- Ho in H. split.
      - apply w_txs_has; auto.
      - apply (has_rc_ext m1); [intros k; apply w_txs_other; discriminate|]. apply w_receipts_has; [exact Hr|]. right. rewrite Hh. exact H. }
    assert (sound (w_epoch m2 e)) as S3 by (apply w_epoch_sound; assumption).
    assert (sound (w_index (w_epoch m2 e) e)) as S4 by (apply w_hash_sound; assumption).
    assert (sound (w_latest (w_index (w_epoch m2 e) e) e)) as S5.
    { apply w_latest_sound; [exact Hf| |exact S4]. apply complete_col1, complete_col1, C2. }
    repeat (apply Forall_cons; split; [assumption|]). apply Forall_nil. exact I.
  Qed.

  Lemma executed_facts os tr root id price cb txs resp tr' :
    executed digest root_of show cf os tr root id price cb txs resp tr' ->
    Forall tx_plain txs /\ Forall receipt_plain (er_receipts resp) /\ map rc_tx_hash (er_receipts resp) = map st_tx_hash txs.
  Proof. intros (x & x' & _ & H & _). exact (exec_plain _ _ _ _ _ _ _ _ H). Qed.

  Definition sound_node (n : node) : Prop :=
    pool_keyed (nd_pool n) /\
    match nd_busy n with
    | Committing id p pf txs => ep_ok (pl_epoch p) /\ map st_tx_hash txs = ep_ordered_tx_hashes (pl_epoch p)
    | _ => True
    end.

  Lemma sound_history l : epochs_ok digest root_of show verify shapes cf l ->
    along (replies_match) (Down (∅, ∅)) l -> holds (fun d => sound d.1) sound_node (history l).
  Proof.
    intros Hok Hr. apply epochs_ok_seen in Hok as [Hs Hk].
    refine (machine_inv (fun d => sound d.1) sound_node (fun m e => seen_ok m e /\ replies_match m e) _ _ _ _ _ _ l _).
    7:{ apply along_and; assumption. }
    - intros n c k H. exact H.
    - intros d o1 o2 k H. exact H.
    - split; cbn [fst]; [intros i b|intros b]; rewrite lookup_empty; discriminate.
    - intros n c r n' t Hp [Hk1 Hb] [Hse Hre] E.
      destruct (light_call c) eqn:L.
      { apply light_call_out in E as [(p & x & -> & Hkp) ->]; [|exact L]. split; [constructor|]. split; [auto|exact Hb]. }
      destruct c as [| | |id cm|os sent|msg first|os re rt]; try discriminate.
      + apply call_commit in E as [r1 E]. unfold seen_ok in Hse. cbn [event_epochs call_epochs] in Hse.
        apply Forall_cons in Hse as [He _]. clear L. destruct E as [r1 Hr1|eh r1 Hr1 Ei Eh|eh txs Ei Eh Eg].
        * split; [constructor|split; assumption].
        * split; [|split; [exact Hk1|exact Hb]]. apply Forall_cons; split; [|constructor].
          rewrite with_proof_db. cbn [fst]. apply w_hash_sound; [congruence|exact Hp].
        * split.
          { apply Forall_cons; split; [|constructor]. rewrite with_proof_db. cbn [fst]. apply w_hash_sound; [congruence|exact Hp]. }
          split; cbn [nd_pool nd_busy set_busy set_pool set_disk]; [apply keyed_flush, Hk1|].
          split; [exact He|]. apply (keyed_full _ _ _ Hk1 Eg).
      + apply call_rest in E as [r1 E]. destruct E as [|id p pf txs r1 Eb Hr1|id p pf txs resp tr' lo Eb Hx El].
        * split; [constructor|split; assumption].
        * split; [constructor|]. split; [exact Hk1|exact I].
        * rewrite Eb in Hb. destruct Hb as [He Ho]. apply executed_facts in Hx as (F1 & F2 & F3). split; [|split; [exact Hk1|exact I]].
          apply Forall_cons; split; [exact Hp|]. apply applied_sound; assumption.
      + apply call_sync in E as [r1 [E ->]]. split; [constructor|].
        destruct E; [split; [assumption|exact Hb]|split; [exact Hk1|exact I]..].
      + apply call_sync_epoch in E as [r1 E].
        destruct E as [Hns|id rich ch sr Eb Hlt|id rich ch sr r1 Eb Hr1 Hre'|id rich ch sr r1 e Eb Hr1 -> Hl'|id rich ch sr e txs resp tr' Eb Hle -> -> Hl' Hx d1].
        * split; [constructor|split; assumption].
        * split; [constructor|]. split; [exact Hk1|exact I].
        * split; [constructor|]. split; [exact Hk1|exact I].
        * split; [|split; [exact Hk1|exact I]]. apply Forall_cons; split; [|constructor].
          rewrite with_proof_db. cbn [fst]. apply w_hash_sound; [congruence|exact Hp].
        * unfold seen_ok in Hse. cbn [event_epochs call_epochs] in Hse. apply Forall_cons in Hse as [He _].
          cbn [replies_match event_call] in Hre. apply executed_facts in Hx as (F1 & F2 & F3).
          assert (sound (w_proof (nd_disk n).1 (eh_proof (ep_header e)))) as Sp by (apply w_hash_sound; [congruence|exact Hp]).
          split; [|split; [exact Hk1|exact I]]. apply Forall_cons; split; [exact Sp|]. apply Forall_cons; split; [exact Sp|].
          apply applied_sound; assumption.
    - intros d o1 o2 root tr Hp [Hse _] _ Eg. unfold seen_ok in Hse. cbn [event_epochs disk] in Hse. rewrite Eg in Hse.
      apply Forall_cons in Hse as [(Hf & Hk1 & Hk2) _]. rewrite genesis_trace. cbn zeta.
      set (e := genesis_epoch digest cf root) in *.
      assert (forall m, complete_raw m e) as Hc by (intros m h Hh; inversion Hh).
      assert (sound (w_epoch d.1 e)) as S3 by (apply w_epoch_sound; auto).
      assert (sound (w_index (w_epoch d.1 e) e)) as S4 by (apply w_hash_sound; auto).
      assert (sound (w_latest (w_index (w_epoch d.1 e) e) e)) as S5 by (apply w_latest_sound; auto).
      assert (sound (w_proof (w_latest (w_index (w_epoch d.1 e) e) e) (genesis_proof digest))) as S6 by (apply w_hash_sound; [congruence|auto]).
      repeat (apply Forall_cons; split; [assumption|]). apply Forall_nil. exact I.
    - intros d n _ Hn. apply start_out in Hn as (e & _ & ->). split; [apply keyed_new|exact I].
  Qed.
End Inv.
